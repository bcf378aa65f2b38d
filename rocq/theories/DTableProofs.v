(** Lemmas about dictionaries and tables. *)
From Verif Require Import PyBase DTableModel DTableSpec.

Section DictLemmas.
  Context {K V : Type} `{EqDecision K}.
  Implicit Types (k : K) (v : V) (d : dict K V).

  Lemma dict_get_None k d : dict_get k d = None <-> k ∉ d.*1.
  Proof.
    induction d as [|[k' v'] d IH]; simpl.
    - split; [intros _; apply not_elem_of_nil | done].
    - rewrite not_elem_of_cons. case_decide as Hk; [subst; naive_solver|]. rewrite IH. naive_solver.
  Qed.

  Lemma dict_get_elem k v d : dict_get k d = Some v -> (k, v) ∈ d.
  Proof.
    induction d as [|[k' v'] d IH]; simpl; [done|].
    case_decide as Hk; intros Hd.
    - simplify_eq. apply elem_of_list_here.
    - apply elem_of_list_further, IH, Hd.
  Qed.

  Lemma dict_get_nodup k v d : NoDup d.*1 -> (k, v) ∈ d -> dict_get k d = Some v.
  Proof.
    induction d as [|[k' v'] d IH]; simpl; intros Hnd Hin.
    - by apply not_elem_of_nil in Hin.
    - apply NoDup_cons in Hnd as [Hn Hnd]. apply elem_of_cons in Hin as [Heq|Hin].
      + simplify_eq. by rewrite decide_True.
      + rewrite decide_False; [by apply IH|]. intros ->.
        apply Hn, elem_of_list_fmap. by exists (k', v).
  Qed.

  Lemma dict_mem_true k d : dict_mem k d = true <-> k ∈ d.*1.
  Proof.
    unfold dict_mem. destruct (dict_get k d) as [v|] eqn:E.
    - split; [intros _|done]. apply dict_get_elem in E.
      apply elem_of_list_fmap. by exists (k, v).
    - apply dict_get_None in E. split; done.
  Qed.

  Lemma dict_mem_false k d : dict_mem k d = false <-> k ∉ d.*1.
  Proof. rewrite <- (dict_mem_true k d). destruct (dict_mem k d); split; congruence. Qed.

  Lemma dict_set_fresh k v d : k ∉ d.*1 -> dict_set k v d = d ++ [(k, v)].
  Proof.
    induction d as [|[k' v'] d IH]; simpl; intros Hn; [done|].
    apply not_elem_of_cons in Hn as [Hne Hn].
    rewrite decide_False by done. by rewrite IH.
  Qed.

  Lemma dict_set_keys_mem k v d : k ∈ d.*1 -> (dict_set k v d).*1 = d.*1.
  Proof.
    induction d as [|[k' v'] d IH]; simpl; intros Hin.
    - by apply not_elem_of_nil in Hin.
    - case_decide; simpl; [done|]. f_equal. apply IH.
      apply elem_of_cons in Hin as [->|Hin]; done.
  Qed.

  Lemma dict_get_set_eq k v d : dict_get k (dict_set k v d) = Some v.
  Proof.
    induction d as [|[k' v'] d IH]; simpl; [by rewrite decide_True|].
    case_decide; simpl; [by rewrite decide_True|by rewrite decide_False].
  Qed.

  Lemma dict_get_set_ne k k' v d : k ≠ k' -> dict_get k (dict_set k' v d) = dict_get k d.
  Proof.
    intros Hne. induction d as [|[k2 v2] d IH]; simpl; [by rewrite decide_False|].
    case_decide as E; simpl.
    - subst. by rewrite !decide_False by done.
    - case_decide; done.
  Qed.

  Lemma dict_set_NoDup k v d : NoDup d.*1 -> NoDup (dict_set k v d).*1.
  Proof.
    intros Hnd. destruct (decide (k ∈ d.*1)) as [Hin|Hn].
    - by rewrite dict_set_keys_mem.
    - rewrite dict_set_fresh by done. rewrite fmap_app. apply NoDup_app.
      split_and!; [done| |simpl; apply NoDup_singleton].
      intros x Hx Hx'. apply elem_of_list_singleton in Hx'. by subst.
  Qed.

  Lemma dict_get_app k d1 d2 :
    dict_get k (d1 ++ d2) = match dict_get k d1 with Some v => Some v | None => dict_get k d2 end.
  Proof. induction d1 as [|[k1 v1] d1 IH]; simpl; [done|]. by case_decide. Qed.
End DictLemmas.

Section NewLemmas.
  Context {K V : Type} `{EqDecision K}.

  Lemma new_keyed_fold_ok (rows d0 : list (K * V)) :
    NoDup (d0 ++ rows).*1 ->
    foldM (fun d kv => if dict_mem kv.1 d then Err ValueError else Ok (dict_set kv.1 kv.2 d)) d0 rows
    = Ok (d0 ++ rows).
  Proof.
    revert d0. induction rows as [|[k v] rows IH]; intros d0 Hnd; simpl.
    - by rewrite app_nil_r.
    - assert (Hn : k ∉ d0.*1).
      { rewrite fmap_app in Hnd. apply NoDup_app in Hnd as (_ & Hd & _).
        intros Hin. apply (Hd k Hin). simpl. apply elem_of_list_here. }
      rewrite (proj2 (dict_mem_false k d0) Hn), dict_set_fresh by done.
      rewrite IH; rewrite <- (assoc_L app); done.
  Qed.

  Lemma new_keyed_fold_err (rows d0 : list (K * V)) :
    NoDup d0.*1 -> ¬ NoDup (d0 ++ rows).*1 ->
    foldM (fun d kv => if dict_mem kv.1 d then Err ValueError else Ok (dict_set kv.1 kv.2 d)) d0 rows
    = Err ValueError.
  Proof.
    revert d0. induction rows as [|[k v] rows IH]; intros d0 Hd0 Hnd; simpl.
    - rewrite app_nil_r in Hnd. done.
    - destruct (dict_mem k d0) eqn:E; [done|].
      apply dict_mem_false in E. apply IH.
      + by apply dict_set_NoDup.
      + rewrite dict_set_fresh by done. rewrite <- (assoc_L app). done.
  Qed.

  Lemma dt_new_keyed_ok (rows : list (K * V)) : NoDup rows.*1 -> dt_new_keyed rows = Ok (DT rows).
  Proof. intros Hnd. unfold dt_new_keyed. by rewrite new_keyed_fold_ok. Qed.

  Lemma dt_new_keyed_dup (rows : list (K * V)) : ¬ NoDup rows.*1 -> dt_new_keyed rows = Err ValueError.
  Proof. intros Hnd. unfold dt_new_keyed. rewrite new_keyed_fold_err; [done|constructor|done]. Qed.
End NewLemmas.

(** Unkeyed construction. *)
Lemma new_unkeyed_fold {V} (vs : list V) (d0 : dict nat V) (n : nat) :
  (forall k, k ∈ d0.*1 -> k < n) ->
  fold_left (fun st v => (dict_set (snd st) v (fst st), S (snd st))) vs (d0, n)
  = (d0 ++ imap (fun i v => (n + i, v)) vs, n + length vs).
Proof.
  revert d0 n. induction vs as [|v vs IH]; intros d0 n Hlt; simpl.
  - by rewrite app_nil_r, Nat.add_0_r.
  - rewrite dict_set_fresh by (intros Hin; specialize (Hlt _ Hin); lia).
    rewrite IH.
    + rewrite <- (assoc_L app). simpl. rewrite Nat.add_0_r. f_equal; [|lia].
      f_equal. f_equal. apply imap_ext. intros i x _. simpl. f_equal. lia.
    + intros k Hk. rewrite fmap_app in Hk. apply elem_of_app in Hk as [Hk|Hk].
      * specialize (Hlt _ Hk). lia.
      * simpl in Hk. apply elem_of_list_singleton in Hk. lia.
Qed.

Lemma dt_new_unkeyed_data {V} (vs : list V) : dt_data (dt_new_unkeyed vs) = imap (fun i v => (i, v)) vs.
Proof.
  apply (f_equal fst (new_unkeyed_fold vs [] 0 (fun k Hk => match not_elem_of_nil k Hk with end))).
Qed.

Lemma imap_pair_keys {V} (vs : list V) (n : nat) :
  (imap (fun i v => (n + i, v)) vs).*1 = seq n (length vs).
Proof.
  revert n. induction vs as [|v vs IH]; intros n; simpl; [done|].
  rewrite Nat.add_0_r. f_equal. rewrite <- IH. f_equal. apply imap_ext. intros; simpl; f_equal; lia.
Qed.

Lemma dt_new_unkeyed_keys {V} (vs : list V) : (dt_data (dt_new_unkeyed vs)).*1 = seq 0 (length vs).
Proof. rewrite dt_new_unkeyed_data. apply (imap_pair_keys vs 0). Qed.

Lemma dt_new_unkeyed_wf {V} (vs : list V) : dt_wf (dt_new_unkeyed vs).
Proof. unfold dt_wf. rewrite dt_new_unkeyed_keys. apply NoDup_ListNoDup, seq_NoDup. Qed.

Lemma mapR_ok {A B} (f : A -> res B) (g : A -> B) (l : list A) :
  (forall x, x ∈ l -> f x = Ok (g x)) -> mapR f l = Ok (map g l).
Proof.
  induction l as [|x l IH]; intros Hf; simpl; [done|].
  rewrite Hf by apply elem_of_list_here. rewrite IH; [done|].
  intros y Hy. apply Hf. by apply elem_of_list_further.
Qed.

Lemma mapR_length {A B} (f : A -> res B) (l : list A) (ys : list B) :
  mapR f l = Ok ys -> length ys = length l.
Proof.
  revert ys. induction l as [|x l IH]; intros ys Hm; simpl in *; [by simplify_eq|].
  destruct (f x); [|done]. destruct (mapR f l); [|done]. simplify_eq. simpl. f_equal. by apply IH.
Qed.

Lemma foldM_ok {A B} (f : A -> B -> res A) (g : A -> B -> A) (l : list B) (a : A) :
  (forall a x, f a x = Ok (g a x)) -> foldM f a l = Ok (fold_left g l a).
Proof.
  intros Hf. revert a. induction l as [|x l IH]; intros a; simpl; [done|].
  rewrite Hf. apply IH.
Qed.

Lemma foldM_app {A B} (f : A -> B -> res A) (l1 l2 : list B) (a : A) :
  foldM f a (l1 ++ l2) = match foldM f a l1 with Ok a' => foldM f a' l2 | Err e => Err e end.
Proof.
  revert a. induction l1 as [|x l1 IH]; intros a; simpl; [done|].
  destruct (f a x); [apply IH|done].
Qed.

Section OpLemmas.
  Context {K V W X : Type} `{EqDecision K}.

  Lemma dt_map_ok (f : K -> V -> res W) (g : K -> V -> W) (t : dtable K V) :
    dt_wf t -> (forall k v, (k, v) ∈ dt_data t -> f k v = Ok (g k v)) ->
    dt_map f t = Ok (DT (map (fun kv => (kv.1, g kv.1 kv.2)) (dt_data t))).
  Proof.
    intros Hwf Hf. unfold dt_map.
    rewrite (mapR_ok _ (fun kv => (kv.1, g kv.1 kv.2))).
    - apply dt_new_keyed_ok. rewrite <- list_fmap_compose. exact Hwf.
    - intros [k v] Hin. simpl. by rewrite Hf.
  Qed.

  Lemma dt_mapValues_ok (f : V -> res W) (g : V -> W) (t : dtable K V) :
    dt_wf t -> (forall k v, (k, v) ∈ dt_data t -> f v = Ok (g v)) ->
    dt_mapValues f t = Ok (DT (map (fun kv => (kv.1, g kv.2)) (dt_data t))).
  Proof.
    intros Hwf Hf. unfold dt_mapValues.
    rewrite (mapR_ok _ (fun kv => (kv.1, g kv.2))).
    - apply dt_new_keyed_ok. rewrite <- list_fmap_compose. exact Hwf.
    - intros [k v] Hin. simpl. by rewrite (Hf k v).
  Qed.

  Lemma fold_left_snoc_filter {A} (p : A -> bool) (l acc : list A) :
    fold_left (fun acc x => if p x then acc ++ [x] else acc) l acc = acc ++ List.filter p l.
  Proof.
    revert acc. induction l as [|x l IH]; intros acc; simpl; [by rewrite app_nil_r|].
    rewrite IH. destruct (p x); [by rewrite <- (assoc_L app)|done].
  Qed.

  Lemma filter_keys_NoDup (p : K * V -> bool) (l : list (K * V)) :
    NoDup l.*1 -> NoDup (List.filter p l).*1.
  Proof.
    induction l as [|[k v] l IH]; simpl; intros Hnd; [done|].
    apply NoDup_cons in Hnd as [Hn Hnd].
    destruct (p (k, v)); [|by apply IH].
    simpl. apply NoDup_cons. split; [|by apply IH].
    intros Hin. apply Hn. apply elem_of_list_fmap in Hin as ([k' v'] & Hk & Hin). simpl in Hk. subst.
    apply elem_of_list_In, List.filter_In in Hin as [Hin _].
    apply elem_of_list_fmap. exists (k', v'). split; [done|]. by apply elem_of_list_In.
  Qed.

  Lemma dt_filter_ok (f : K -> V -> bool) (t : dtable K V) :
    dt_wf t -> dt_filter f t = Ok (DT (List.filter (fun kv => f kv.1 kv.2) (dt_data t))).
  Proof.
    intros Hwf. unfold dt_filter.
    rewrite (fold_left_snoc_filter (fun kv => f kv.1 kv.2)). simpl.
    apply dt_new_keyed_ok, filter_keys_NoDup, Hwf.
  Qed.

  Lemma fold_left_snoc_filter_neg {A} (p : A -> bool) (l acc : list A) :
    fold_left (fun acc x => if p x then acc else acc ++ [x]) l acc = acc ++ List.filter (fun x => negb (p x)) l.
  Proof.
    revert acc. induction l as [|x l IH]; intros acc; simpl; [by rewrite app_nil_r|].
    rewrite IH. destruct (p x); simpl; [done|by rewrite <- (assoc_L app)].
  Qed.

  Lemma dt_subtractByKey_ok (t : dtable K V) (o : dtable K W) :
    dt_wf t ->
    dt_subtractByKey t o
    = Ok (DT (List.filter (fun kv => negb (dict_mem kv.1 (dt_data o))) (dt_data t))).
  Proof.
    intros Hwf. unfold dt_subtractByKey.
    rewrite (fold_left_snoc_filter_neg (fun kv => dict_mem kv.1 (dt_data o))). simpl.
    apply dt_new_keyed_ok, filter_keys_NoDup, Hwf.
  Qed.

  (** rows of the join, as a list comprehension *)
  Definition join_rows (g : V -> W -> X) (t : list (K * V)) (o : list (K * W)) : list (K * X) :=
    omap (fun kv => match dict_get kv.1 t with Some v => Some (kv.1, g v kv.2) | None => None end) o.

  Lemma join_fold_ok (f : V -> W -> res X) (g : V -> W -> X) (t : list (K * V)) (o : list (K * W)) acc :
    (forall k v w, (k, v) ∈ t -> (k, w) ∈ o -> f v w = Ok (g v w)) ->
    foldM (fun acc kv => match dict_get kv.1 t with
                         | Some v => match f v kv.2 with Ok x => Ok (acc ++ [(kv.1, x)]) | Err e => Err e end
                         | None => Ok acc
                         end) acc o
    = Ok (acc ++ join_rows g t o).
  Proof.
    revert acc. induction o as [|[k w] o IH]; intros acc Hf; simpl; [by rewrite app_nil_r|].
    destruct (dict_get k t) as [v|] eqn:E; simpl.
    - rewrite (Hf k v w); [|by apply dict_get_elem|apply elem_of_list_here].
      rewrite IH; [by rewrite <- (assoc_L app)|].
      intros k' v' w' H1 H2. apply (Hf k'); [done|by apply elem_of_list_further].
    - apply IH. intros k' v' w' H1 H2. apply (Hf k'); [done|by apply elem_of_list_further].
  Qed.

  Lemma join_rows_keys (g : V -> W -> X) (t : list (K * V)) (o : list (K * W)) :
    (join_rows g t o).*1 = List.filter (fun k => dict_mem k t) o.*1.
  Proof.
    induction o as [|[k w] o IH]; simpl; [done|].
    unfold dict_mem at 1. destruct (dict_get k t) eqn:E; simpl; [by f_equal|done].
  Qed.

  Lemma NoDup_List_filter {A} (p : A -> bool) (l : list A) : NoDup l -> NoDup (List.filter p l).
  Proof.
    induction l as [|x l IH]; simpl; intros Hnd; [done|].
    apply NoDup_cons in Hnd as [Hn Hnd]. destruct (p x); [|by apply IH].
    apply NoDup_cons. split; [|by apply IH]. intros Hin. apply Hn.
    apply elem_of_list_In, List.filter_In in Hin as [Hin _]. by apply elem_of_list_In.
  Qed.

  Lemma dt_join_ok (f : V -> W -> res X) (g : V -> W -> X) (t : dtable K V) (o : dtable K W) :
    dt_wf o ->
    (forall k v w, (k, v) ∈ dt_data t -> (k, w) ∈ dt_data o -> f v w = Ok (g v w)) ->
    dt_join f t o = Ok (DT (join_rows g (dt_data t) (dt_data o))).
  Proof.
    intros Hwf Hf. unfold dt_join. rewrite (join_fold_ok f g) by exact Hf. simpl.
    apply dt_new_keyed_ok. rewrite join_rows_keys. by apply NoDup_List_filter.
  Qed.

  Lemma join_rows_elem (g : V -> W -> X) (t : list (K * V)) (o : list (K * W)) k x :
    NoDup t.*1 ->
    (k, x) ∈ join_rows g t o <-> exists v w, (k, v) ∈ t /\ (k, w) ∈ o /\ x = g v w.
  Proof.
    intros Ht. unfold join_rows. rewrite elem_of_list_omap. split.
    - intros ([k' w] & Hin & Hk). simpl in Hk. destruct (dict_get k' t) as [v|] eqn:E; simplify_eq.
      exists v, w. split_and!; [by apply dict_get_elem|done|done].
    - intros (v & w & Hv & Hw & ->). exists (k, w). split; [done|]. simpl.
      by rewrite (dict_get_nodup k v).
  Qed.
End OpLemmas.

Section UnionLemmas.
  Context {K V : Type} `{EqDecision K}.

  Definition union_step (f : V -> V -> V) (d : dict K V) (kv : K * V) : dict K V :=
    match dict_get kv.1 d with
    | Some v0 => dict_set kv.1 (f v0 kv.2) d
    | None => dict_set kv.1 kv.2 d
    end.

  Lemma union_step_keys f d k v :
    (union_step f d (k, v)).*1 = d.*1 ++ (if dict_mem k d then [] else [k]).
  Proof.
    unfold union_step, dict_mem. simpl. destruct (dict_get k d) as [v0|] eqn:E.
    - rewrite dict_set_keys_mem, app_nil_r; [done|].
      apply dict_get_elem in E. apply elem_of_list_fmap. by exists (k, v0).
    - apply dict_get_None in E. rewrite dict_set_fresh by done. by rewrite fmap_app.
  Qed.

  Lemma union_step_NoDup f d kv : NoDup d.*1 -> NoDup (union_step f d kv).*1.
  Proof. intros Hd. unfold union_step. destruct (dict_get kv.1 d); by apply dict_set_NoDup. Qed.

  Lemma union_fold_NoDup f o d : NoDup d.*1 -> NoDup (fold_left (union_step f) o d).*1.
  Proof.
    revert d. induction o as [|kv o IH]; intros d Hd; simpl; [done|]. by apply IH, union_step_NoDup.
  Qed.

  Lemma union_fold_keys f o d :
    NoDup o.*1 ->
    (fold_left (union_step f) o d).*1 = d.*1 ++ List.filter (fun k => negb (dict_mem k d)) o.*1.
  Proof.
    revert d. induction o as [|[k v] o IH]; intros d Ho; simpl.
    - by rewrite app_nil_r.
    - simpl in Ho. apply NoDup_cons in Ho as [Hn Ho].
      rewrite IH by done. rewrite union_step_keys, <- (assoc_L app). f_equal.
      assert (Hext : List.filter (fun k0 => negb (dict_mem k0 (union_step f d (k, v)))) o.*1
                     = List.filter (fun k0 => negb (dict_mem k0 d)) o.*1).
      { apply List.filter_ext_in. intros a Ha. f_equal.
        assert (Hak : a ≠ k) by (intros ->; by apply Hn, elem_of_list_In).
        unfold dict_mem, union_step. simpl.
        destruct (dict_get k d); by rewrite dict_get_set_ne. }
      rewrite Hext. destruct (dict_mem k d); done.
  Qed.

  Lemma union_fold_get f o d k :
    NoDup o.*1 ->
    dict_get k (fold_left (union_step f) o d)
    = match dict_get k d, dict_get k o with
      | Some a, Some b => Some (f a b)
      | Some a, None => Some a
      | None, ob => ob
      end.
  Proof.
    revert d. induction o as [|[k' v] o IH]; intros d Ho; simpl.
    - by destruct (dict_get k d).
    - simpl in Ho. apply NoDup_cons in Ho as [Hn Ho]. rewrite IH by done.
      unfold union_step. simpl. case_decide as Hk.
      + subst k'. apply dict_get_None in Hn. rewrite Hn.
        destruct (dict_get k d) as [a|] eqn:E; by rewrite dict_get_set_eq.
      + destruct (dict_get k' d); by rewrite dict_get_set_ne.
  Qed.

  Lemma dt_union_ok (f : V -> V -> V) (t o : dtable K V) :
    dt_wf t -> dt_union f t o = Ok (DT (fold_left (union_step f) (dt_data o) (dt_data t))).
  Proof. intros Hwf. unfold dt_union. apply dt_new_keyed_ok. by apply union_fold_NoDup. Qed.
End UnionLemmas.

Section ReduceLemmas.
  Context {K V : Type} `{EqDecision K}.

  Lemma dt_take_ok (n : nat) (t : dtable K V) : dt_take n t = take n (dt_data t).
  Proof.
    unfold dt_take.
    assert (H : forall l i,
      (fix go (i : nat) (l : dict K V) :=
         match l with [] => [] | kv :: l' => if decide (n <= i) then [] else kv :: go (S i) l' end) i l
      = take (n - i) l).
    { induction l as [|kv l IH]; intros i; [by rewrite take_nil|].
      case_decide as Hi.
      - replace (n - i) with 0 by lia. done.
      - replace (n - i) with (S (n - S i)) by lia. simpl. by rewrite IH. }
    rewrite H. by rewrite Nat.sub_0_r.
  Qed.

End ReduceLemmas.

Section MRP.
  Context {K2 W : Type} `{EqDecision K2}.

  (** mapReducePartitions *)
  Definition mrp_step (r : W -> W -> W) (d : dict K2 W) (kv : K2 * W) : dict K2 W :=
    match dict_get kv.1 d with
    | None => dict_set kv.1 kv.2 d
    | Some w0 => dict_set kv.1 (r w0 kv.2) d
    end.

  Lemma mrp_fold_get r (l : list (K2 * W)) d k :
    dict_get k (fold_left (mrp_step r) l d)
    = match dict_get k d with
      | Some w0 => Some (fold_left r (vals_of k l) w0)
      | None => fold1 r (vals_of k l)
      end.
  Proof.
    revert d. induction l as [|[k' w] l IH]; intros d; simpl.
    - by destruct (dict_get k d).
    - rewrite IH. unfold mrp_step, vals_of. simpl.
      destruct (decide (k' = k)) as [->|Hne].
      + rewrite bool_decide_true by done. simpl.
        destruct (dict_get k d) eqn:E; by rewrite dict_get_set_eq.
      + rewrite bool_decide_false by done.
        destruct (dict_get k' d); by rewrite dict_get_set_ne.
  Qed.

  Lemma mrp_fold_NoDup r (l : list (K2 * W)) (d : dict K2 W) : NoDup d.*1 -> NoDup (fold_left (mrp_step r) l d).*1.
  Proof.
    revert d. induction l as [|kv l IH]; intros d Hd; simpl; [done|]. apply IH.
    unfold mrp_step. destruct (dict_get kv.1 d); by apply dict_set_NoDup.
  Qed.

  Lemma List_filter_filter {A} (p q : A -> bool) (l : list A) :
    List.filter p (List.filter q l) = List.filter (fun x => q x && p x) l.
  Proof.
    induction l as [|x l IH]; simpl; [done|]. destruct (q x); simpl; [|done].
    destruct (p x); by rewrite IH.
  Qed.

  Lemma mrp_fold_keys r (l : list (K2 * W)) d :
    (fold_left (mrp_step r) l d).*1
    = d.*1 ++ List.filter (fun k => negb (dict_mem k d)) (first_occ l.*1).
  Proof.
    revert d. induction l as [|[k w] l IH]; intros d; simpl; [by rewrite app_nil_r|].
    rewrite IH. unfold mrp_step. simpl. destruct (dict_get k d) as [w0|] eqn:E.
    - assert (Hk : k ∈ d.*1).
      { apply dict_get_elem in E. apply elem_of_list_fmap. by exists (k, w0). }
      rewrite dict_set_keys_mem by done. f_equal.
      rewrite (proj2 (dict_mem_true k d)) by done. simpl.
      rewrite List_filter_filter. apply List.filter_ext. intros a.
      unfold dict_mem. destruct (decide (a = k)) as [->|Hne].
      + rewrite dict_get_set_eq, bool_decide_false by naive_solver. done.
      + rewrite dict_get_set_ne, bool_decide_true by done. done.
    - assert (Hk : k ∉ d.*1) by (by apply dict_get_None).
      rewrite dict_set_fresh by done. rewrite fmap_app, <- (assoc_L app). f_equal. simpl.
      rewrite (proj2 (dict_mem_false k d)) by done. simpl. f_equal.
      rewrite List_filter_filter. apply List.filter_ext. intros a.
      unfold dict_mem. rewrite dict_get_app. simpl.
      destruct (decide (a = k)) as [->|Hne].
      + rewrite E. rewrite bool_decide_false by naive_solver. done.
      + rewrite bool_decide_true by done. by destruct (dict_get a d).
  Qed.

  Lemma dt_mrp_ok {K V} (mapper : list (K * V) -> list (K2 * W)) r (t : dtable K V) :
    dt_mapReducePartitions mapper r t = Ok (DT (fold_left (mrp_step r) (mapper (dt_data t)) [])).
  Proof.
    unfold dt_mapReducePartitions. apply dt_new_keyed_ok.
    apply (mrp_fold_NoDup r (mapper (dt_data t)) []). constructor.
  Qed.
End MRP.

Lemma constructed_wf {K V} `{EqDecision K} (t : dtable K V) : constructed t -> dt_wf t.
Proof.
  intros [rows Hr]. destruct (decide (NoDup rows.*1)) as [Hnd|Hnd].
  - rewrite dt_new_keyed_ok in Hr by done. by simplify_eq.
  - by rewrite dt_new_keyed_dup in Hr.
Qed.

Lemma wf_constructed {K V} `{EqDecision K} (t : dtable K V) : dt_wf t -> constructed t.
Proof. intros Hwf. exists (dt_data t). rewrite dt_new_keyed_ok by done. by destruct t. Qed.

Lemma agrees_get {K V} `{EqDecision K} (t : dtable K V) m :
  dt_wf t -> (agrees t m <-> forall k, dict_get k (dt_data t) = m k).
Proof.
  intros Hwf. unfold agrees, dt_collect. split.
  - intros Ha k. destruct (m k) as [v|] eqn:E.
    + apply dict_get_nodup; [done|]. by apply Ha.
    + apply dict_get_None. intros Hin. apply elem_of_list_fmap in Hin as ([k' v] & -> & Hin).
      simpl in E. apply Ha in Hin. congruence.
  - intros Hg k v. rewrite <- Hg. split; [by apply dict_get_nodup|by apply dict_get_elem].
Qed.

Section History.
  Context {K V : Type} `{EqDecision K}.

  Lemma dict_get_filter (p : K -> V -> bool) (l : list (K * V)) k :
    NoDup l.*1 ->
    dict_get k (List.filter (fun kv => p kv.1 kv.2) l)
    = match dict_get k l with Some v => if p k v then Some v else None | None => None end.
  Proof.
    induction l as [|[k' v'] l IH]; simpl; intros Hnd; [done|].
    apply NoDup_cons in Hnd as [Hn Hnd].
    case_decide as Hk.
    - subst. destruct (p k' v'); simpl; [by rewrite decide_True|].
      rewrite IH by done. apply dict_get_None in Hn. by rewrite Hn.
    - destruct (p k' v'); simpl; [rewrite decide_False by done|]; by apply IH.
  Qed.

  Lemma dict_get_map_val {W} (g : K -> V -> W) (l : list (K * V)) k :
    dict_get k (map (fun kv => (kv.1, g kv.1 kv.2)) l)
    = match dict_get k l with Some v => Some (g k v) | None => None end.
  Proof. induction l as [|[k' v'] l IH]; simpl; [done|]. case_decide; [by subst|done]. Qed.

  Lemma dict_get_join_rows {W X} (g : V -> W -> X) (t : list (K * V)) (o : list (K * W)) k :
    NoDup o.*1 ->
    dict_get k (join_rows g t o)
    = match dict_get k t, dict_get k o with Some a, Some b => Some (g a b) | _, _ => None end.
  Proof.
    induction o as [|[k' w] o IH]; simpl; intros Hnd.
    - by destruct (dict_get k t).
    - apply NoDup_cons in Hnd as [Hn Hnd]. unfold join_rows in *. simpl.
      destruct (dict_get k' t) as [v|] eqn:E; simpl.
      + case_decide as Hk; [subst; by rewrite E|by apply IH].
      + case_decide as Hk; [|by apply IH]. subst. rewrite E.
        rewrite IH by done. by rewrite E.
  Qed.

  Lemma run_op_refines (t : dtable K V) (o : op K V) (m : K -> option V) :
    dt_wf t -> operand_ok o -> agrees t m ->
    exists t', run_op t o = Ok t' /\ dt_wf t' /\ agrees t' (fm_op m o).
  Proof.
    intros Hwf Hop Hag. pose proof (proj1 (agrees_get t m Hwf) Hag) as Hget.
    destruct o as [f|f|p|o mo f|o mo f|o mo]; simpl in Hop; simpl.
    - rewrite (dt_map_ok _ f) by done. eexists. split; [done|].
      assert (Hwf' : dt_wf (DT (map (fun kv : K * V => (kv.1, f kv.1 kv.2)) (dt_data t)))).
      { unfold dt_wf. simpl. rewrite <- list_fmap_compose. exact Hwf. }
      split; [done|]. apply agrees_get; [done|]. intros k. simpl.
      rewrite dict_get_map_val, Hget. by destruct (m k).
    - rewrite (dt_mapValues_ok _ f) by done. eexists. split; [done|].
      assert (Hwf' : dt_wf (DT (map (fun kv : K * V => (kv.1, f kv.2)) (dt_data t)))).
      { unfold dt_wf. simpl. rewrite <- list_fmap_compose. exact Hwf. }
      split; [done|]. apply agrees_get; [done|]. intros k. simpl.
      rewrite (dict_get_map_val (fun _ v => f v)), Hget. by destruct (m k).
    - rewrite dt_filter_ok by done. eexists. split; [done|].
      assert (Hwf' : dt_wf (DT (List.filter (fun kv : K * V => p kv.1 kv.2) (dt_data t)))).
      { unfold dt_wf. simpl. by apply filter_keys_NoDup. }
      split; [done|]. apply agrees_get; [done|]. intros k. simpl.
      rewrite dict_get_filter, Hget by done. by destruct (m k).
    - destruct Hop as [Hop Hmo]. apply constructed_wf in Hop.
      pose proof (proj1 (agrees_get o mo Hop) Hmo) as Hgo.
      rewrite (dt_join_ok _ f) by done. eexists. split; [done|].
      assert (Hwf' : dt_wf (DT (join_rows f (dt_data t) (dt_data o)))).
      { unfold dt_wf. simpl. rewrite join_rows_keys. by apply NoDup_List_filter. }
      split; [done|]. apply agrees_get; [done|]. intros k. simpl.
      by rewrite dict_get_join_rows, Hget, Hgo by done.
    - destruct Hop as [Hop Hmo]. apply constructed_wf in Hop.
      pose proof (proj1 (agrees_get o mo Hop) Hmo) as Hgo.
      rewrite dt_union_ok by done. eexists. split; [done|].
      assert (Hwf' : dt_wf (DT (fold_left (union_step f) (dt_data o) (dt_data t)))).
      { by apply union_fold_NoDup. }
      split; [done|]. apply agrees_get; [done|]. intros k. simpl.
      by rewrite union_fold_get, Hget, Hgo by done.
    - destruct Hop as [Hop Hmo]. apply constructed_wf in Hop.
      pose proof (proj1 (agrees_get o mo Hop) Hmo) as Hgo.
      rewrite dt_subtractByKey_ok by done. eexists. split; [done|].
      assert (Hwf' : dt_wf (DT (List.filter (fun kv : K * V => negb (dict_mem kv.1 (dt_data o))) (dt_data t)))).
      { unfold dt_wf. simpl. by apply filter_keys_NoDup. }
      split; [done|]. apply agrees_get; [done|]. intros k. simpl.
      rewrite (dict_get_filter (fun k _ => negb (dict_mem k (dt_data o)))), Hget by done.
      unfold dict_mem. rewrite Hgo. destruct (m k), (mo k); done.
  Qed.

  Lemma run_ops_refines (ops : list (op K V)) (t : dtable K V) (m : K -> option V) :
    dt_wf t -> Forall operand_ok ops -> agrees t m ->
    exists t', foldM run_op t ops = Ok t' /\ dt_wf t' /\ agrees t' (fold_left fm_op ops m).
  Proof.
    revert t m. induction ops as [|o ops IH]; intros t m Hwf Hops Hag; simpl.
    - by exists t.
    - apply Forall_cons in Hops as [Ho Hops].
      destruct (run_op_refines t o m Hwf Ho Hag) as (t1 & -> & Hwf1 & Hag1). by apply IH.
  Qed.

  Lemma run_ops_constructed (ops : list (op K V)) (t : dtable K V) (m : K -> option V) :
    constructed t -> Forall operand_ok ops -> agrees t m ->
    exists t', foldM run_op t ops = Ok t' /\ NoDup (dt_keys t') /\ agrees t' (fold_left fm_op ops m).
  Proof. intros Hc. apply run_ops_refines. by apply constructed_wf. Qed.

  Lemma join_full {W X} (f : V -> W -> X) (a : dtable K V) (b : dtable K W) :
    constructed a -> constructed b ->
    exists t, dt_join (fun v w => Ok (f v w)) a b = Ok t
    /\ dt_keys t = List.filter (fun k => bool_decide (k ∈ dt_keys a)) (dt_keys b)
    /\ (forall k x, (k, x) ∈ dt_collect t <->
          exists v w, (k, v) ∈ dt_collect a /\ (k, w) ∈ dt_collect b /\ x = f v w).
  Proof.
    intros Ha Hb. apply constructed_wf in Ha, Hb.
    rewrite (dt_join_ok _ f) by done. eexists. split; [done|]. split.
    - unfold dt_keys. simpl. etrans; [apply join_rows_keys|].
      apply List.filter_ext. intros k. apply eq_true_iff_eq.
      rewrite bool_decide_eq_true. apply dict_mem_true.
    - intros k x. apply join_rows_elem, Ha.
  Qed.

  Lemma union_full (f : V -> V -> V) (a b : dtable K V) :
    constructed a -> constructed b ->
    exists t, dt_union f a b = Ok t
    /\ dt_keys t = dt_keys a ++ List.filter (fun k => bool_decide (k ∉ dt_keys a)) (dt_keys b)
    /\ (forall k x, (k, x) ∈ dt_collect t <->
          (exists u v, (k, u) ∈ dt_collect a /\ (k, v) ∈ dt_collect b /\ x = f u v)
          \/ ((k, x) ∈ dt_collect a /\ k ∉ dt_keys b)
          \/ (k ∉ dt_keys a /\ (k, x) ∈ dt_collect b)).
  Proof.
    intros Ha Hb. apply constructed_wf in Ha, Hb.
    rewrite dt_union_ok by done. eexists. split; [done|]. split.
    - unfold dt_keys. simpl. etrans; [by apply union_fold_keys|]. f_equal.
      apply List.filter_ext. intros k. destruct (dict_mem k (dt_data a)) eqn:E; simpl.
      + rewrite bool_decide_false; [done|]. intros Hn. by apply Hn, dict_mem_true.
      + rewrite bool_decide_true; [done|]. by apply dict_mem_false.
    - intros k x. unfold dt_collect, dt_keys. simpl.
      pose proof (union_fold_NoDup f (dt_data b) (dt_data a) Ha) as Hnd.
      change (map fst (dt_data a)) with ((dt_data a).*1).
      change (map fst (dt_data b)) with ((dt_data b).*1).
      rewrite <- !dict_get_None.
      assert (Hiff : forall d : dict K V, NoDup d.*1 -> forall y, (k, y) ∈ d <-> dict_get k d = Some y).
      { intros d Hd y. split; [by apply dict_get_nodup|by apply dict_get_elem]. }
      rewrite (Hiff _ Hnd), union_fold_get by done.
      setoid_rewrite (Hiff _ Ha). setoid_rewrite (Hiff _ Hb).
      destruct (dict_get k (dt_data a)) as [u|], (dict_get k (dt_data b)) as [v|]; naive_solver.
  Qed.

  Lemma subtract_full {W} (a : dtable K V) (b : dtable K W) :
    constructed a ->
    exists t, dt_subtractByKey a b = Ok t
    /\ dt_collect t = List.filter (fun kv => bool_decide (kv.1 ∉ dt_keys b)) (dt_collect a).
  Proof.
    intros Ha. apply constructed_wf in Ha. rewrite dt_subtractByKey_ok by done.
    eexists. split; [done|]. unfold dt_collect. simpl. apply List.filter_ext. intros [k v]. simpl.
    destruct (dict_mem k (dt_data b)) eqn:E; simpl.
    - rewrite bool_decide_false; [done|]. intros Hn. by apply Hn, dict_mem_true.
    - rewrite bool_decide_true; [done|]. by apply dict_mem_false.
  Qed.

  Lemma filter_full (p : K -> V -> bool) (a : dtable K V) :
    constructed a ->
    exists t, dt_filter p a = Ok t
    /\ dt_collect t = List.filter (fun kv => p kv.1 kv.2) (dt_collect a).
  Proof. intros Ha. apply constructed_wf in Ha. rewrite dt_filter_ok by done. by eexists. Qed.

  Lemma map_full {W} (f : K -> V -> W) (a : dtable K V) :
    constructed a ->
    exists t, dt_map (fun k v => Ok (f k v)) a = Ok t
    /\ dt_collect t = map (fun kv => (kv.1, f kv.1 kv.2)) (dt_collect a).
  Proof. intros Ha. apply constructed_wf in Ha. rewrite (dt_map_ok _ f) by done. by eexists. Qed.

  Lemma mapValues_full {W} (f : V -> W) (a : dtable K V) :
    constructed a ->
    exists t, dt_mapValues (fun v => Ok (f v)) a = Ok t
    /\ dt_collect t = map (fun kv => (kv.1, f kv.2)) (dt_collect a).
  Proof. intros Ha. apply constructed_wf in Ha. rewrite (dt_mapValues_ok _ f) by done. by eexists. Qed.

  Lemma new_keyed_iff (rows : list (K * V)) :
    (NoDup rows.*1 -> exists t, dt_new_keyed rows = Ok t /\ dt_collect t = rows /\ dt_count t = length rows)
    /\ (¬ NoDup rows.*1 -> dt_new_keyed rows = Err ValueError).
  Proof.
    split; [|apply dt_new_keyed_dup]. intros Hnd. rewrite dt_new_keyed_ok by done. by eexists.
  Qed.

  Lemma mrp_full {K1 V1} (mapper : list (K1 * V1) -> list (K * V)) (r : V -> V -> V) (t : dtable K1 V1) :
    exists t', dt_mapReducePartitions mapper r t = Ok t'
    /\ dt_keys t' = first_occ (mapper (dt_collect t)).*1
    /\ (forall k w, (k, w) ∈ dt_collect t' <-> fold1 r (vals_of k (mapper (dt_collect t))) = Some w).
  Proof.
    rewrite dt_mrp_ok. eexists. split; [done|]. split.
    - unfold dt_keys, dt_collect. simpl. etrans; [apply mrp_fold_keys|]. simpl.
      induction (first_occ (mapper (dt_data t)).*1) as [|x l IH]; simpl; [done|]. by f_equal.
    - intros k w. unfold dt_collect. simpl.
      pose proof (mrp_fold_NoDup r (mapper (dt_data t)) [] ltac:(constructor)) as Hnd.
      transitivity (dict_get k (fold_left (mrp_step r) (mapper (dt_data t)) []) = Some w).
      + split; [by apply dict_get_nodup|by apply dict_get_elem].
      + by rewrite mrp_fold_get.
  Qed.

  Lemma reduce_restart (f : option V -> option V -> option V) (l1 l2 : list (K * option V)) :
    dt_reduce f (DT l1) = None -> dt_reduce f (DT (l1 ++ l2)) = dt_reduce f (DT l2).
  Proof. unfold dt_reduce. simpl. intros H. by rewrite map_app, fold_left_app, H. Qed.

  Lemma reduce_some (g : V -> V -> V) (f : option V -> option V -> option V) (l : list (K * V)) :
    (forall a b, f (Some a) (Some b) = Some (g a b)) ->
    dt_reduce f (DT (map (fun kv => (kv.1, Some kv.2)) l)) = fold1 g (map snd l).
  Proof.
    intros Hf. unfold dt_reduce. simpl. rewrite map_map. simpl.
    destruct l as [|[k v] l]; simpl; [done|].
    revert v. induction l as [|[k' v'] l IH]; intros v; simpl; [done|]. rewrite Hf. apply IH.
  Qed.
End History.

Lemma imap_zip {V} (vs : list V) (n : nat) :
  imap (fun i v => (n + i, v)) vs = zip (seq n (length vs)) vs.
Proof.
  revert n. induction vs as [|v vs IH]; intros n; simpl; [done|].
  rewrite Nat.add_0_r. f_equal. rewrite <- IH. apply imap_ext. intros; simpl; f_equal; lia.
Qed.

Lemma new_unkeyed_full {V} (vs : list V) :
  dt_collect (dt_new_unkeyed vs) = zip (seq 0 (length vs)) vs
  /\ dt_count (dt_new_unkeyed vs) = length vs.
Proof.
  unfold dt_collect, dt_count. rewrite dt_new_unkeyed_data. split.
  - apply (imap_zip vs 0).
  - by rewrite imap_length.
Qed.

Lemma mapPartitions_full {K V W} (f : list (K * V) -> list W) (t : dtable K V) :
  exists t', dt_mapPartitions (fun rows => Ok (PList (f rows))) t = Ok t'
  /\ dt_collect t' = zip (seq 0 (length (f (dt_collect t)))) (f (dt_collect t))
  /\ NoDup (dt_keys t').
Proof.
  eexists. split; [done|]. split; [apply new_unkeyed_full|apply dt_new_unkeyed_wf].
Qed.

Lemma take_first_full {K V} (n : nat) (t : dtable K V) :
  dt_take n t = take n (dt_collect t) /\ dt_first t = head (dt_collect t).*2.
Proof. split; [apply dt_take_ok|]. unfold dt_first, dt_collect. by destruct (dt_data t). Qed.
