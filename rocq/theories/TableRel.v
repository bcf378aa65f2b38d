(** Table operations with functions that may raise, described pointwise by key. *)
From Verif Require Import PyBase DTableModel DTableSpec DTableProofs.

(** The value stored under a key. *)
Definition tget {K V} `{EqDecision K} (t : dtable K V) (k : K) : option V := dict_get k (dt_data t).

Section get.
  Context {K V : Type} `{EqDecision K}.

  Lemma tget_elem (t : dtable K V) k v : dt_wf t -> (tget t k = Some v <-> (k, v) ∈ dt_data t).
  Proof. intros Hwf. split; [apply dict_get_elem|by apply dict_get_nodup]. Qed.

  Lemma tget_None (t : dtable K V) k : tget t k = None <-> k ∉ dt_keys t.
  Proof. apply dict_get_None. Qed.

  Lemma tget_key (t : dtable K V) k v : tget t k = Some v -> k ∈ dt_keys t.
  Proof.
    intros Hg. destruct (decide (k ∈ dt_keys t)) as [|N]; [done|].
    apply tget_None in N. congruence.
  Qed.

  Lemma tget_is_Some (t : dtable K V) k : is_Some (tget t k) <-> k ∈ dt_keys t.
  Proof.
    split; [intros [v Hv]; by eapply tget_key|]. intros Hk. destruct (tget t k) as [v|] eqn:E; [by exists v|].
    apply tget_None in E. done.
  Qed.

End get.

Section rel.
  Context {K V W X : Type} `{EqDecision K}.

  Lemma mapR_rel {A B} (f : A -> res B) (R : A -> B -> Prop) (l : list A) :
    (forall x, x ∈ l -> exists y, f x = Ok y /\ R x y) -> exists ys, mapR f l = Ok ys /\ Forall2 R l ys.
  Proof.
    induction l as [|x l IH]; intros Hf; simpl; [exists []; auto|].
    destruct (Hf x) as (y & Hy & Ry); [apply elem_of_list_here|].
    destruct IH as (ys & Hys & Rys); [intros z Hz; apply Hf; by apply elem_of_list_further|].
    rewrite Hy, Hys. exists (y :: ys). auto.
  Qed.

  Lemma Forall2_dict_get (R : K -> V -> W -> Prop) (l : list (K * V)) (l' : list (K * W)) k :
    Forall2 (fun kv kw => kw.1 = kv.1 /\ R kv.1 kv.2 kw.2) l l' ->
    match dict_get k l, dict_get k l' with
    | Some v, Some w => R k v w | None, None => True | _, _ => False end.
  Proof.
    induction 1 as [|[k1 v] [k2 w] l l' [E HR] _ IH]; simpl in *; [done|]. subst.
    case_decide; [by subst|done].
  Qed.

  Lemma Forall2_keys (R : K -> V -> W -> Prop) (l : list (K * V)) (l' : list (K * W)) :
    Forall2 (fun kv kw => kw.1 = kv.1 /\ R kv.1 kv.2 kw.2) l l' -> l'.*1 = l.*1.
  Proof. induction 1 as [|x y l1 l2 [E _] _ IH]; [done|]. cbn. by rewrite E, IH. Qed.

  Lemma dt_map_rel (f : K -> V -> res W) (R : K -> V -> W -> Prop) (t : dtable K V) :
    dt_wf t -> (forall k v, tget t k = Some v -> exists w, f k v = Ok w /\ R k v w) ->
    exists t', dt_map f t = Ok t' /\ dt_wf t' /\ dt_keys t' = dt_keys t /\
      forall k, match tget t k, tget t' k with
                | Some v, Some w => R k v w | None, None => True | _, _ => False end.
  Proof.
    intros Hwf Hf. unfold dt_map.
    destruct (mapR_rel (fun kv => match f kv.1 kv.2 with Ok w => Ok (kv.1, w) | Err e => Err e end)
                (fun kv kw => kw.1 = kv.1 /\ R kv.1 kv.2 kw.2) (dt_data t)) as (ys & Hys & Rys).
    { intros [k v] Hin. destruct (Hf k v) as (w & Hw & Rw); [by apply tget_elem|].
      simpl. rewrite Hw. by exists (k, w). }
    rewrite Hys. pose proof (Forall2_keys R _ _ Rys) as Ek.
    assert (ND : NoDup ys.*1) by (rewrite Ek; exact Hwf).
    rewrite dt_new_keyed_ok by exact ND. eexists. split; [done|]. split; [exact ND|]. split; [exact Ek|].
    intros k. apply (Forall2_dict_get R). exact Rys.
  Qed.

  Lemma dt_mapValues_rel (f : V -> res W) (R : K -> V -> W -> Prop) (t : dtable K V) :
    dt_wf t -> (forall k v, tget t k = Some v -> exists w, f v = Ok w /\ R k v w) ->
    exists t', dt_mapValues f t = Ok t' /\ dt_wf t' /\ dt_keys t' = dt_keys t /\
      forall k, match tget t k, tget t' k with
                | Some v, Some w => R k v w | None, None => True | _, _ => False end.
  Proof. apply (dt_map_rel (fun _ => f) R t). Qed.

  Lemma dt_mapValues_id (t : dtable K V) : dt_wf t -> dt_mapValues Ok t = Ok t.
  Proof.
    intros Hwf. rewrite (dt_mapValues_ok Ok (fun v => v)) by done.
    destruct t as [d]. do 2 f_equal. simpl. induction d as [|[k v] d IH]; simpl; [done|].
    f_equal. apply IH. unfold dt_wf in *. simpl in *. by apply NoDup_cons in Hwf as [_ Hwf].
  Qed.

  Lemma join_fold_rel (f : V -> W -> res X) (R : K -> V -> W -> X -> Prop) (t : list (K * V)) (o : list (K * W)) acc :
    (forall k v w, dict_get k t = Some v -> (k, w) ∈ o -> exists x, f v w = Ok x /\ R k v w x) ->
    exists l, foldM (fun acc kv => match dict_get kv.1 t with
                         | Some v => match f v kv.2 with Ok x => Ok (acc ++ [(kv.1, x)]) | Err e => Err e end
                         | None => Ok acc end) acc o = Ok (acc ++ l)
      /\ l.*1 = List.filter (fun k => dict_mem k t) o.*1
      /\ forall k x, (k, x) ∈ l -> exists v w, dict_get k t = Some v /\ (k, w) ∈ o /\ R k v w x.
  Proof.
    revert acc. induction o as [|[k w] o IH]; intros acc Hf; simpl.
    - exists []. rewrite app_nil_r. split; [done|]. split; [done|]. intros k x Hin. by apply not_elem_of_nil in Hin.
    - unfold dict_mem at 1. destruct (dict_get k t) as [v|] eqn:E.
      + destruct (Hf k v w E) as (x & Hx & Rx); [apply elem_of_list_here|]. rewrite Hx.
        destruct (IH (acc ++ [(k, x)])) as (l & Hl & Kl & Rl).
        { intros k' v' w' H1 H2. apply Hf; [done|by apply elem_of_list_further]. }
        exists ((k, x) :: l). rewrite Hl, <- (assoc_L app). split; [done|]. simpl. split; [f_equal; exact Kl|].
        intros k' x' [Heq|Hin]%elem_of_cons.
        * simplify_eq. exists v, w. split; [done|]. split; [apply elem_of_list_here|done].
        * destruct (Rl _ _ Hin) as (v' & w' & ? & ? & ?). exists v', w'. split; [done|].
          split; [by apply elem_of_list_further|done].
      + destruct (IH acc) as (l & Hl & Kl & Rl).
        { intros k' v' w' H1 H2. apply Hf; [done|by apply elem_of_list_further]. }
        exists l. split; [done|]. split; [done|]. intros k' x' Hin.
        destruct (Rl _ _ Hin) as (v' & w' & ? & ? & ?). exists v', w'. split; [done|].
        split; [by apply elem_of_list_further|done].
  Qed.

  Lemma dt_join_rel (f : V -> W -> res X) (R : K -> V -> W -> X -> Prop) (t : dtable K V) (o : dtable K W) :
    dt_wf o -> (forall k v w, tget t k = Some v -> tget o k = Some w -> exists x, f v w = Ok x /\ R k v w x) ->
    exists t', dt_join f t o = Ok t' /\ dt_wf t' /\
      dt_keys t' = List.filter (fun k => dict_mem k (dt_data t)) (dt_keys o) /\
      forall k, match tget t k, tget o k, tget t' k with
                | Some v, Some w, Some x => R k v w x
                | Some _, Some _, None => False
                | _, _, Some _ => False
                | _, _, None => True end.
  Proof.
    intros Hwf Hf. unfold dt_join.
    destruct (join_fold_rel f R (dt_data t) (dt_data o) []) as (l & Hl & Kl & Rl).
    { intros k v w H1 H2. apply Hf; [done|by apply tget_elem]. }
    rewrite Hl. simpl. assert (ND : NoDup l.*1) by (rewrite Kl; by apply NoDup_List_filter).
    rewrite dt_new_keyed_ok by exact ND. eexists. split; [done|]. split; [exact ND|]. split; [exact Kl|].
    intros k. unfold tget. simpl. destruct (dict_get k l) as [x|] eqn:E.
    - apply dict_get_elem in E. destruct (Rl _ _ E) as (v & w & Hv & Hw & HR).
      rewrite Hv, (dict_get_nodup k w _ Hwf Hw). done.
    - destruct (dict_get k (dt_data t)) as [v|] eqn:E1; [|done].
      destruct (dict_get k (dt_data o)) as [w|] eqn:E2; [|done].
      apply dict_get_None in E. apply E. rewrite Kl. apply elem_of_list_In, filter_In. split.
      + apply elem_of_list_In. apply dict_get_elem in E2. apply elem_of_list_fmap. by exists (k, w).
      + unfold dict_mem. by rewrite E1.
  Qed.
End rel.
