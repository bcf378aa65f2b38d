(** The boosting loop, for any way of training single trees that works. *)
From Verif Require Export PredictSave BoostSpec.
Local Open Scope nat_scope.

Lemma is_div r dim c : c < dim -> (r * dim + c) / dim = r /\ (r * dim + c) mod dim = c.
Proof. intros H. split; [symmetry; apply (Nat.div_unique _ _ r c); lia|symmetry; apply (Nat.mod_unique _ _ r c); lia]. Qed.

(** ** Scores *)
Section Scores.
  Context {K : Type} (rnd : Qc -> Qc) (lr : Qc) (dim : nat).
  Lemma score_ext W W' r c (k : K) : (forall r', r' < r -> W (r' * dim + c) k = W' (r' * dim + c) k) -> score rnd lr dim W r c k = score rnd lr dim W' r c k.
  Proof. intros H. unfold score. f_equal. apply map_ext_in. intros r' Hr. apply in_seq in Hr. apply H. lia. Qed.
  Lemma score_S W r c (k : K) : score rnd lr dim W (S r) c k = rnd (score rnd lr dim W r c k + rnd (lr * W (r * dim + c)%nat k))%Qc.
  Proof. unfold score, add_up. rewrite seq_S, map_app, fold_left_app. reflexivity. Qed.
  Lemma scores_ext W W' r (k : K) : (forall j, j < r * dim -> W j k = W' j k) -> scores rnd lr dim W r k = scores rnd lr dim W' r k.
  Proof. intros H. unfold scores. apply map_ext_in. intros c Hc. apply in_seq in Hc. apply score_ext. intros r' Hr. apply H. nia. Qed.

  (** The scores while round [r] is under way: the classes below [c] already have their tree. *)
  Definition mids (W : nat -> K -> Qc) (r c : nat) (k : K) : list Qc := map (fun c' => score rnd lr dim W (if c' <? c then S r else r) c' k) (seq 0 dim).
  Lemma mids_0 W r (k : K) : mids W r 0 k = scores rnd lr dim W r k.
  Proof. reflexivity. Qed.
  Lemma mids_dim W r (k : K) : mids W r dim k = scores rnd lr dim W (S r) k.
  Proof. unfold mids, scores. apply map_ext_in. intros c Hc. apply in_seq in Hc. destruct (Nat.ltb_spec c dim); [reflexivity|lia]. Qed.
  Lemma mids_lookup W r c (k : K) c' : c' < dim -> mids W r c k !! c' = Some (score rnd lr dim W (if c' <? c then S r else r) c' k).
  Proof. intros H. unfold mids. rewrite map_lookup, lookup_seq_lt by exact H. reflexivity. Qed.
  Lemma mids_length W r c (k : K) : length (mids W r c k) = dim.
  Proof. unfold mids. now rewrite map_length, seq_length. Qed.
  Lemma mids_S W W' r c (k : K) : c < dim -> (forall j, j < r * dim + c -> W' j k = W j k) ->
    mids W' r (S c) k = <[c := rnd (score rnd lr dim W r c k + rnd (lr * W' (r * dim + c)%nat k))%Qc]> (mids W r c k).
  Proof.
    intros Hc H. apply list_eq. intros c'. destruct (decide (c' < dim)) as [L|L].
    - rewrite mids_lookup by exact L. destruct (decide (c' = c)) as [->|NE].
      + rewrite list_lookup_insert by (rewrite mids_length; exact L). destruct (Nat.ltb_spec c (S c)); [|lia]. rewrite score_S. do 3 f_equal. apply score_ext. intros r' Hr. apply H. nia.
      + rewrite list_lookup_insert_ne by congruence. rewrite mids_lookup by exact L. f_equal.
        destruct (Nat.ltb_spec c' (S c)), (Nat.ltb_spec c' c); try lia; apply score_ext; intros r' Hr; apply H; nia.
    - rewrite !lookup_ge_None_2; [reflexivity|rewrite ?insert_length, mids_length; lia..].
  Qed.
End Scores.

(** ** Gradients *)
Section Grad.
  Context (rnd : Qc -> Qc).
  Lemma list_index_ok {A} (l : list A) i x : l !! i = Some x -> list_index l i = Ok x.
  Proof. intros H. unfold list_index. now rewrite H. Qed.
  Lemma nth_qc (l : list Qc) i x : l !! i = Some x -> nth i l (zq 0) = x.
  Proof. intros H. rewrite nth_lookup, H. reflexivity. Qed.
  Lemma grad_ok kind y p c dim : length p = dim -> c < dim -> match kind with Sigmoid => dim = 1 | Softmax => y < dim end ->
    exists g, grad rnd kind y p = Ok g /\ g !! c = Some (gradient rnd kind y p c).
  Proof.
    intros Lp Hc Hy. destruct (lookup_lt_is_Some_2 p c) as [x Hx]; [lia|]. destruct kind; cbn [grad gradient].
    - eexists. split; [reflexivity|]. rewrite map_lookup, Hx. cbn. now rewrite (nth_qc _ _ _ Hx).
    - destruct (lookup_lt_is_Some_2 p y) as [z Hz]; [lia|]. rewrite (list_index_ok _ _ _ Hz). cbn [mbind res_bind]. eexists. split; [reflexivity|]. rewrite (nth_qc _ _ _ Hx).
      destruct (decide (c = y)) as [->|NE].
      + rewrite list_lookup_insert by lia. congruence.
      + now rewrite list_lookup_insert_ne by congruence.
  Qed.
  Lemma grad_ok' kind y p dim : length p = dim -> 0 < dim -> match kind with Sigmoid => dim = 1 | Softmax => y < dim end ->
    exists g, grad rnd kind y p = Ok g /\ forall c, c < dim -> g !! c = Some (gradient rnd kind y p c).
  Proof.
    intros Lp Hd Hy. destruct (grad_ok kind y p 0 dim Lp Hd Hy) as (g & Eg & _). exists g. split; [exact Eg|]. intros c Hc.
    destruct (grad_ok kind y p c dim Lp Hc Hy) as (g' & Eg' & H). congruence.
  Qed.
  Lemma hess_ok p c dim : length p = dim -> c < dim -> hess rnd p !! c = Some (hessian rnd p c).
  Proof. intros Lp Hc. destruct (lookup_lt_is_Some_2 p c) as [x Hx]; [lia|]. unfold hess, hessian. rewrite map_lookup, Hx. cbn. now rewrite (nth_qc _ _ _ Hx). Qed.

  Lemma gradient_bound kind y p c : rnd_ok rnd -> (forall x, x ∈ p -> (0 <= x)%Qc /\ (x <= 1)%Qc) -> match kind with Sigmoid => y <= 1 | Softmax => True end ->
    (qabs (gradient rnd kind y p c) <= 1)%Qc /\ (0 <= hessian rnd p c)%Qc /\ (hessian rnd p c <= 1)%Qc.
  Proof.
    intros [R0 R1] Hp Hy. unfold gradient, hessian.
    assert (B : (0 <= nth c p (zq 0))%Qc /\ (nth c p (zq 0) <= 1)%Qc).
    { rewrite nth_lookup. destruct (p !! c) as [x|] eqn:E; cbn; [apply Hp; eapply elem_of_list_lookup_2; eauto|]. rewrite zq_0. split; qlra. }
    set (x := nth c p (zq 0)) in *. clearbody x. destruct B as [B0 B1].
    assert (T : forall z, (0 <= z)%Qc -> (z <= 1)%Qc -> (0 <= rnd z)%Qc /\ (rnd z <= 1)%Qc).
    { intros z Z0 Z1. split; [now apply R0|]. assert (qabs z <= 1)%Qc as Q by (apply qabs_le; split; qlra). apply R1 in Q. apply qabs_le in Q. apply Q. }
    split.
    - destruct kind.
      + apply R1. apply qabs_le. assert (y = 0 \/ y = 1) as [-> | ->] by lia; cbn [Z.of_nat]; [change (Z.of_nat 0) with 0%Z; rewrite zq_0|change (Z.of_nat 1) with 1%Z; rewrite zq_1]; split; qlra.
      + destruct (decide _); [apply R1|]; apply qabs_le; rewrite ?zq_1; split; qlra.
    - rewrite zq_1. destruct (T (1 - x)%Qc) as [A0 A1]; [qlra|qlra|]. set (z := rnd (1 - x)%Qc) in *. clearbody z.
      apply T; qnra.
  Qed.
End Grad.

(** ** Storing a learnt tree *)
(** The stored copies of all parties together stand for the tree. *)
Definition stored {K} (nh : nat) (sname : nat -> site) (gcfg : pcfg K) (hcfg : nat -> pcfg K) (g : tree_pb) (h : nat -> tree_pb) (t : dtree) : Prop :=
  prepr nh sname (load_tree g).1 (load_tree g).2 (fun i => (load_tree (h i)).2) 0 (pt_of gcfg hcfg t) /\ forall i, i < nh -> (load_tree (h i)).1 = (load_tree g).1.

Lemma small_pow d n : d <= 30 -> n <= 2 ^ (d + 1) - 1 -> small n.
Proof.
  intros Hd Hn. unfold small. assert (Z.of_nat (2 ^ (d + 1)) <= 2 ^ 31)%Z; [|lia]. rewrite Nat2Z.inj_pow. apply Z.pow_le_mono_r; lia.
Qed.

Section Store.
  Context {K : Type} `{EqDecision K} (U : list K) (nh : nat) (gcfg : pcfg K) (hcfg : nat -> pcfg K) (guest : party K) (hosts : list (party K)) (sname : nat -> site) (it : imp_type).

  Lemma fit_stored t st hm d : fit_post U nh gcfg hcfg guest hosts sname it t st hm -> tdepth t <= d -> d <= 30 ->
    (forall own, match own with None => True | Some i => i < nh end -> (Z.of_nat (length (c_points (cfg_of gcfg hcfg own))) <= 2 ^ 31)%Z) ->
    exists g h, save_tree (t_nodes st) (t_mask st) = Ok g /\ (forall i, i < nh -> save_tree (t_nodes st) (hm i) = Ok (h i)) /\ stored nh sname gcfg hcfg g h t.
  Proof.
    intros FP TD D30 NF.
    assert (SZ : forall n, n <= length (t_nodes st) -> small n).
    { intros n Hn. apply (small_pow d); [exact D30|]. rewrite (f_size _ _ _ _ _ _ _ _ _ _ _ FP) in Hn. pose proof (tsize_bound t). pose proof (Nat.pow_le_mono_r 2 (tdepth t + 1) (d + 1) ltac:(lia) ltac:(lia)). lia. }
    assert (ND : forall nd, nd ∈ t_nodes st -> node_fits nd).
    { intros nd Hn. assert (CH : forall c, c ∈ children nd -> small c).
      { intros c Hc. apply SZ. assert (X : c ∈ flat_map children (t_nodes st)) by (apply elem_of_list_In, in_flat_map; exists nd; split; apply elem_of_list_In; assumption).
        rewrite (f_children _ _ _ _ _ _ _ _ _ _ _ FP) in X. apply elem_of_list_In, in_seq in X. lia. }
      pose proof Hn as Hn'. apply elem_of_list_lookup in Hn' as (j & Hj). split; [|split; [|split]].
      - rewrite (f_ids _ _ _ _ _ _ _ _ _ _ _ FP _ _ Hj). apply SZ. apply lookup_lt_Some in Hj. lia.
      - intros f Hf. destruct (f_fids _ _ _ _ _ _ _ _ _ _ _ FP nd f Hn Hf) as (own & Ho & L). specialize (NF own Ho). unfold small. lia.
      - intros c Hc. apply CH. unfold children. rewrite Hc. destruct (n_right nd); left.
      - intros c Hc. apply CH. unfold children. rewrite Hc. destruct (n_left nd); [right; left|left]. }
    assert (GM : forall id, id ∈ map fst (t_mask st) -> small id).
    { intros id Hid. apply SZ. apply Nat.lt_le_incl, (f_gmask _ _ _ _ _ _ _ _ _ _ _ FP). apply elem_of_list_fmap in Hid as ([k v] & -> & Hv). cbn [fst].
      clear -Hv. induction (t_mask st) as [|[k' v'] m IH]; [inversion Hv|]. cbn. destruct (decide _); [eauto|]. apply elem_of_cons in Hv as [[= -> ->]|Hv]; [congruence|]. now apply IH. }
    assert (HM : forall i, i < nh -> forall id, id ∈ map fst (hm i) -> small id).
    { intros i Hi id Hid. assert (S : is_Some (dict_get id (hm i))).
      { apply elem_of_list_fmap in Hid as ([k v] & -> & Hv). cbn [fst]. clear -Hv. induction (hm i) as [|[k' v'] m IH]; [inversion Hv|]. cbn. destruct (decide _); [eauto|]. apply elem_of_cons in Hv as [[= -> ->]|Hv]; [congruence|]. now apply IH. }
      apply (f_masks _ _ _ _ _ _ _ _ _ _ _ FP i id Hi) in S as (nd & Hn & _). apply SZ. apply lookup_lt_Some in Hn. lia. }
    destruct (save_load_tree (t_nodes st) (t_mask st) (conj ND GM)) as (g & Eg & Lg).
    destruct (fin_choice_any g nh (fun i p => save_tree (t_nodes st) (hm i) = Ok p /\ load_tree p = (map reloaded (t_nodes st), map (fun kv => (kv.1, real kv.2)) (hm i)))) as (h & Hh).
    { intros i Hi. apply save_load_tree. split; [exact ND|exact (HM i Hi)]. }
    exists g, h. split; [exact Eg|]. split; [intros i Hi; apply (Hh i Hi)|]. split.
    - rewrite Lg. cbn [fst snd]. apply (reload_prepr nh sname (t_nodes st) (t_mask st) hm).
      + apply repr_prepr. exact (f_repr _ _ _ _ _ _ _ _ _ _ _ FP).
      + intros k v Hv. rewrite real_get. now rewrite Hv.
      + intros i k v Hi Hv. rewrite (proj2 (Hh i Hi)). cbn [snd]. rewrite real_get. now rewrite Hv.
    - intros i Hi. rewrite (proj2 (Hh i Hi)), Lg. reflexivity.
  Qed.
End Store.

(** ** The loop *)
Lemma gains_all_app name ps key T1 T2 : flat_map (gains name ps key) (T1 ++ T2) = flat_map (gains name ps key) T1 ++ flat_map (gains name ps key) T2.
Proof. apply flat_map_app. Qed.
Lemma add_importance_get new : forall total key, NoDup new.*1 ->
  dict_get key (add_importance total new) = match dict_get key new with Some x => Some (match dict_get key total with Some y => y | None => zq 0 end + x)%Qc | None => dict_get key total end.
Proof.
  unfold add_importance. induction new as [|[key' x] new IH]; intros total key ND; [reflexivity|]. apply NoDup_cons in ND as [NI ND]. cbn [fold_left fst snd]. rewrite IH by exact ND. cbn [dict_get].
  destruct (decide (key = key')) as [->|NE].
  - rewrite (proj2 (dict_get_None _ _) NI). rewrite dict_get_set_eq. reflexivity.
  - destruct (dict_get key new); rewrite dict_get_set_ne by congruence; reflexivity.
Qed.

Section Loop.
  Context {K : Type} `{EqDecision K} {C E : Type} {R S Cal : Type}.
  Context (rnd : Qc -> Qc) (pred : loss_kind -> list Qc -> list Qc) (lossf : loss_kind -> dtable K nat -> dtable K (list Qc) -> Qc).
  Context (U : list K) (nh : nat) (gcfg : pcfg K) (hcfg : nat -> pcfg K) (guest : party K) (hosts : list (party K)) (sname : nat -> site) (it : imp_type).
  Context (P : bparams) (kind : loss_kind) (dim : nat) (y : dtable K nat) (lab : K -> nat).
  Context (gdraw : nat -> nat -> nat -> list nat) (hdraw : nat -> nat -> nat -> nat -> list nat).
  Context (calc : nat -> Cal -> dtable K (Qc * Qc) -> res (Cal * dtable K (C * C))) (dec : C -> res Qc) (gdec : E -> res Qc) (genc : nat -> nat -> nat -> Qc -> res E) (Ops : numops C).
  (** What is known of the calculator before tree [j]. *)
  Context (Ix : nat -> Cal -> Prop).
  Context (gv : nat -> list bool) (hv : nat -> nat -> list bool) (grown : nat -> (K -> Qc) -> (K -> Qc) -> dtree -> Prop).
  Local Notation msg := (msg K C E).
  Local Notation per_split := (match it with ISplit => true | _ => false end).
  Local Notation lr := (b_lr P).
  Local Notation wt := (wt guest hosts).

  Context (Hdim : 0 < dim) (Hlab : forall k, k ∈ U -> match kind with Sigmoid => dim = 1 /\ lab k <= 1 | Softmax => lab k < dim end).
  Context (Hy : dt_wf y /\ (forall k, k ∈ dt_keys y <-> k ∈ U) /\ forall k v, (k, v) ∈ dt_data y -> v = lab k).
  Context (Hpred : forall f, length f = dim -> length (pred kind f) = dim /\ forall x, x ∈ pred kind f -> (0 <= x)%Qc /\ (x <= 1)%Qc).
  Context (Hrnd : rnd_ok rnd).
  Context (Hgv : forall j, sample_valid_features (length (c_points gcfg)) (b_rate P) (gdraw j) = Ok (gv j)).
  Context (Hhv : forall i j, i < nh -> sample_valid_features (length (c_points (hcfg i))) (b_rate P) (hdraw i j) = Ok (hv i j)).
  Context (FIT : forall j x gs vg vh, j < b_rounds P * dim -> Ix j x -> dt_wf gs -> (forall k, k ∈ dt_keys gs <-> k ∈ U) -> (forall k c, (k, c) ∈ dt_data gs -> c = (vg k, vh k)) ->
    (forall k, k ∈ U -> (qabs (vg k) <= 1)%Qc /\ (0 <= vh k)%Qc /\ (vh k <= 1)%Qc) ->
    exists x' ghc t st hm g h w, calc j x gs = Ok (x', ghc) /\ Ix (Datatypes.S j) x' /\ grown j vg vh t /\
      @runs msg R S nh _ _ (guest_fit nh (set_valid gcfg (gv j)) it gs (fun _ => Ok ghc) dec gdec (genc j)) (fun i => host_fit Ops (sname i) (set_valid (hcfg i) (hv i j))) st (fun i => (t_nodes st, hm i)) /\
      save_tree (t_nodes st) (t_mask st) = Ok g /\ (forall i, i < nh -> save_tree (t_nodes st) (hm i) = Ok (h i)) /\ stored nh sname gcfg hcfg g h t /\
      t_weights st = Some w /\ dt_wf w /\ (forall k v, tget w k = Some v <-> k ∈ U /\ v = route guest hosts t k) /\
      NoDup (t_imp st).*1 /\ forall key, dict_get key (t_imp st) = add_all None (gains (own_site sname) per_split key t)).

  (** The parties after the trees [T]; class [c] is next in round [r]. *)
  Record binv (T : list dtree) (r c : nat) (st : @bstate K) (ht : nat -> list tree_pb) : Prop := {
    bi_len : length T = r * dim + c;
    bi_boosted : boosted U guest hosts lab kind dim rnd lr pred grown T;
    bi_F : dt_wf (bs_F st) /\ forall k v, tget (bs_F st) k = Some v <-> k ∈ U /\ v = mids rnd lr dim (wt T) r c k;
    bi_trees : length (bs_trees st) = length T /\ forall i, i < nh -> length (ht i) = length T;
    bi_stored : forall j t, T !! j = Some t -> exists g h, bs_trees st !! j = Some g /\ (forall i, i < nh -> ht i !! j = Some (h i)) /\ stored nh sname gcfg hcfg g h t;
    bi_imp : forall key, dict_get key (bs_imp st) = add_all None (flat_map (gains (own_site sname) per_split key) T) }.

  Lemma wt_app T t j k : j < length T -> wt (T ++ [t]) j k = wt T j k.
  Proof. intros Hj. unfold BoostSpec.wt. now rewrite lookup_app_l. Qed.
  Lemma wt_last T t k : wt (T ++ [t]) (length T) k = route guest hosts t k.
  Proof. unfold BoostSpec.wt. now rewrite list_lookup_middle. Qed.

  (** The gradients of all classes at the scores of the trees [T0], [r] full rounds. *)
  Definition grads_at (T0 : list dtree) (r : nat) (gh : dtable K (list Qc * list Qc)) : Prop :=
    dt_wf gh /\ (forall k, k ∈ dt_keys gh <-> k ∈ U) /\ forall k v, tget gh k = Some v -> let p := pred kind (scores rnd lr dim (wt T0) r k) in
      forall c, c < dim -> v.1 !! c = Some (gradient rnd kind (lab k) p c) /\ v.2 !! c = Some (hessian rnd p c).

  Lemma F_keys T r c (F : dtable K (list Qc)) : (forall k v, tget F k = Some v <-> k ∈ U /\ v = mids rnd lr dim (wt T) r c k) -> forall k, k ∈ dt_keys F <-> k ∈ U.
  Proof. intros G k. rewrite <- tget_is_Some. split; [intros [v Hv]; now apply G in Hv|]. intros Hk. eexists. apply G. eauto. Qed.

  Lemma grads_ok T r st ht : binv T r 0 st ht -> exists gh, grad_and_hess rnd pred kind y (bs_F st) = Ok gh /\ grads_at T r gh.
  Proof.
    intros I. destruct (bi_F _ _ _ _ _ I) as [WF GF]. destruct Hy as (Wy & Ky & Vy). unfold grad_and_hess.
    destruct (dt_join_rel (fun c f => g ← grad rnd kind c (pred kind f); Ok (g, hess rnd (pred kind f)))
      (fun k _ _ v => let p := pred kind (scores rnd lr dim (wt T) r k) in forall c, c < dim -> v.1 !! c = Some (gradient rnd kind (lab k) p c) /\ v.2 !! c = Some (hessian rnd p c)) y (bs_F st) WF) as (gh & Egh & Wgh & Kgh & Ggh).
    { intros k c f Hc Hf. apply GF in Hf as [Hk ->]. rewrite mids_0. apply tget_elem in Hc; [|exact Wy]. apply Vy in Hc as ->.
      destruct (Hpred (scores rnd lr dim (wt T) r k)) as [Lp _]; [unfold scores; now rewrite map_length, seq_length|].
      destruct (grad_ok' rnd kind (lab k) (pred kind (scores rnd lr dim (wt T) r k)) dim Lp Hdim) as (g & Eg & Gg).
      { specialize (Hlab k Hk). destruct kind; [apply Hlab|exact Hlab]. }
      rewrite Eg. cbn [mbind res_bind]. eexists. split; [reflexivity|]. cbn [fst snd]. intros c Hc. split; [now apply Gg|now apply (hess_ok rnd _ c dim)]. }
    exists gh. split; [exact Egh|]. split; [exact Wgh|]. split.
    - intros k. rewrite <- (F_keys _ _ _ _ GF k). rewrite Kgh, !elem_of_list_In, filter_In, <- !elem_of_list_In. split; [tauto|]. intros Hk. split; [exact Hk|].
      apply (F_keys _ _ _ _ GF) in Hk. apply Ky, tget_is_Some in Hk as [v Hv]. unfold dict_mem. unfold tget in Hv. now rewrite Hv.
    - intros k v Hv. specialize (Ggh k). rewrite Hv in Ggh. destruct (tget y k), (tget (bs_F st) k); try contradiction. exact Ggh.
  Qed.

  Lemma class_ok T0 r gh c : grads_at T0 r gh -> c < dim -> exists gs, class_grad gh c = Ok gs /\ dt_wf gs /\ (forall k, k ∈ dt_keys gs <-> k ∈ U) /\
    forall k v, (k, v) ∈ dt_data gs -> let p := pred kind (scores rnd lr dim (wt T0) r k) in v = (gradient rnd kind (lab k) p c, hessian rnd p c).
  Proof.
    intros (W & KS & G) Hc. unfold class_grad.
    destruct (dt_mapValues_rel (fun v : list Qc * list Qc => g ← list_index v.1 c; h ← list_index v.2 c; Ok (g, h))
      (fun k _ v => let p := pred kind (scores rnd lr dim (wt T0) r k) in v = (gradient rnd kind (lab k) p c, hessian rnd p c)) gh W) as (gs & Egs & Wgs & Kgs & Ggs).
    { intros k v Hv. destruct (G k v Hv c Hc) as [A B]. rewrite (list_index_ok _ _ _ A), (list_index_ok _ _ _ B). cbn [mbind res_bind]. eauto. }
    exists gs. split; [exact Egs|]. split; [exact Wgs|]. split; [intros k; rewrite Kgs; apply KS|].
    intros k v Hv. apply tget_elem in Hv; [|exact Wgs]. specialize (Ggs k). rewrite Hv in Ggs. destruct (tget gh k); [exact Ggs|contradiction].
  Qed.

  Lemma update_ok T r c F w t : length T = r * dim + c -> c < dim -> dt_wf F -> (forall k v, tget F k = Some v <-> k ∈ U /\ v = mids rnd lr dim (wt T) r c k) ->
    dt_wf w -> (forall k v, tget w k = Some v <-> k ∈ U /\ v = route guest hosts t k) ->
    exists F', update_f rnd lr c F w = Ok F' /\ dt_wf F' /\ forall k v, tget F' k = Some v <-> k ∈ U /\ v = mids rnd lr dim (wt (T ++ [t])) r (Datatypes.S c) k.
  Proof.
    intros LT Hc WF GF Ww Gw. unfold update_f.
    destruct (dt_join_rel (fun f x => old ← list_index f c; Ok (<[c := rnd (old + rnd (lr * x))%Qc]> f))
      (fun k _ _ v => v = mids rnd lr dim (wt (T ++ [t])) r (Datatypes.S c) k) F w Ww) as (F' & EF & WF' & KF' & GF').
    { intros k f x Hf Hx. apply GF in Hf as [Hk ->]. apply Gw in Hx as [_ ->].
      assert (X : mids rnd lr dim (wt T) r c k !! c = Some (score rnd lr dim (wt T) r c k)) by (rewrite mids_lookup, Nat.ltb_irrefl by exact Hc; reflexivity).
      rewrite (list_index_ok _ _ _ X). cbn [mbind res_bind]. eexists. split; [reflexivity|].
      rewrite (mids_S rnd lr dim (wt T)); [|exact Hc|intros j Hj; apply wt_app; lia]. rewrite <- LT, wt_last. reflexivity. }
    exists F'. split; [exact EF|]. split; [exact WF'|]. intros k v. specialize (GF' k). split.
    - intros Hv. rewrite Hv in GF'. destruct (tget F k) as [f|] eqn:Ef; [|contradiction]. apply GF in Ef as [Hk _]. split; [exact Hk|]. destruct (tget w k); [exact GF'|contradiction].
    - intros [Hk ->]. assert (A : tget F k = Some (mids rnd lr dim (wt T) r c k)) by (apply GF; auto). assert (B : tget w k = Some (route guest hosts t k)) by (apply Gw; auto).
      rewrite A, B in GF'. destruct (tget F' k); [now subst|contradiction].
  Qed.

  Lemma boosted_app T t r c vg vh : length T = r * dim + c -> c < dim -> boosted U guest hosts lab kind dim rnd lr pred grown T -> grown (r * dim + c) vg vh t ->
    (forall k, k ∈ U -> vg k = gradient rnd kind (lab k) (pred kind (scores rnd lr dim (wt T) r k)) c /\ vh k = hessian rnd (pred kind (scores rnd lr dim (wt T) r k)) c) ->
    boosted U guest hosts lab kind dim rnd lr pred grown (T ++ [t]).
  Proof.
    intros LT Hc B G V r' c' t' Hc' Ht.
    assert (SX : forall k, r' * dim <= length T -> scores rnd lr dim (wt (T ++ [t])) r' k = scores rnd lr dim (wt T) r' k).
    { intros k L. apply scores_ext. intros j Hj. apply wt_app. lia. }
    apply lookup_app_Some in Ht as [Ht|[L Ht]].
    - pose proof (lookup_lt_Some _ _ _ Ht) as L. destruct (B r' c' t' Hc' Ht) as (vg' & vh' & G' & V'). exists vg', vh'. split; [exact G'|]. intros k Hk. rewrite SX by lia. now apply V'.
    - apply list_lookup_singleton_Some in Ht as [E0 <-]. assert (X : r' * dim + c' = r * dim + c) by lia.
      destruct (is_div r' dim c' Hc') as [D1 M1]. destruct (is_div r dim c Hc) as [D2 M2]. rewrite X in D1, M1. assert (Er : r' = r) by congruence. assert (Ec : c' = c) by congruence. clear D1 M1 D2 M2. subst r' c'.
      exists vg, vh. split; [exact G|]. intros k Hk. rewrite SX by lia. now apply V.
  Qed.

  (** One tree. *)
  Lemma tree_ok T0 gh T r c st x ht : binv T r c st ht -> Ix (length T) x -> r < b_rounds P -> c < dim -> grads_at T0 r gh -> (forall j k, j < r * dim -> wt T0 j k = wt T j k) -> exists t st' x' ht',
    @runs msg R S nh _ _ (guest_tree rnd nh P gcfg it gdraw calc dec gdec genc gh (st, x) c) (fun i => host_tree Ops (sname i) P (hcfg i) (hdraw i) (ht i)) (st', x') ht' /\
    binv (T ++ [t]) r (Datatypes.S c) st' ht' /\ Ix (length (T ++ [t])) x' /\ bs_hist st' = bs_hist st /\ bs_pre st' = bs_pre st.
  Proof.
    intros I HX Hr Hc GA PX. destruct I as [LT BO [WF GF] [L1 L2] STO IMP]. destruct (class_ok T0 r gh c GA Hc) as (gs & Egs & Wgs & Kgs & Vgs).
    set (vg := fun k => gradient rnd kind (lab k) (pred kind (scores rnd lr dim (wt T0) r k)) c). set (vh := fun k => hessian rnd (pred kind (scores rnd lr dim (wt T0) r k)) c).
    destruct (FIT (length T) x gs vg vh ltac:(nia) HX Wgs Kgs Vgs) as (x' & ghc & t & ts & hm & g & h & w & EX & IX & GR & RU & Eg & Eh & ST & Ew & Ww & Gw & NI & IM).
    { intros k Hk. destruct (Hpred (scores rnd lr dim (wt T0) r k)) as [_ Bp]; [unfold scores; now rewrite map_length, seq_length|].
      apply gradient_bound; [exact Hrnd|exact Bp|]. specialize (Hlab k Hk). destruct kind; [apply Hlab|exact I]. }
    destruct (update_ok T r c (bs_F st) w t LT Hc WF GF Ww Gw) as (F' & EF & WF' & GF').
    exists t, (BState F' (bs_trees st ++ [g]) (add_importance (bs_imp st) (t_imp ts)) (bs_hist st) (bs_pre st)), x', (fun i => ht i ++ [h i]). split; [|split; [|split; [rewrite app_length; cbn [length]; rewrite Nat.add_1_r; exact IX|split; reflexivity]]].
    - unfold guest_tree, host_tree. cbv zeta. cbn [fst snd]. rewrite L1. eapply runs_glift; [exact Egs|]. eapply runs_glift; [exact (Hgv (length T))|].
      eapply (runs_hlift nh _ (fun i => hv i (length T))); [intros i Hi; rewrite (L2 i Hi); now apply Hhv|].
      eapply runs_glift; [exact EX|]. cbn [fst snd]. refine (runs_seq nh _ _ _ _ _ _ _ _ RU _). cbn [fst snd]. eapply runs_glift; [exact Eg|]. eapply runs_glift; [rewrite Ew; reflexivity|]. eapply runs_glift; [exact EF|].
      eapply (runs_hlift nh _ h); [exact Eh|]. apply runs_ret.
    - split; cbn [bs_F bs_trees bs_imp bs_hist bs_pre].
      + rewrite app_length, LT. cbn. lia.
      + apply (boosted_app T t r c vg vh LT Hc BO); [rewrite <- LT; exact GR|]. intros k Hk. unfold vg, vh. rewrite (scores_ext rnd lr dim (wt T0) (wt T)) by (intros j Hj; now apply PX). auto.
      + split; [exact WF'|exact GF'].
      + rewrite !app_length, L1. split; [reflexivity|]. intros i Hi. now rewrite app_length, L2.
      + intros j t' Hj. apply lookup_app_Some in Hj as [Hj|[Lj Hj]].
        * destruct (STO j t' Hj) as (g' & h' & A & B & D). exists g', h'. split; [now apply lookup_app_l_Some|]. split; [|exact D]. intros i Hi. apply lookup_app_l_Some. now apply B.
        * apply list_lookup_singleton_Some in Hj as [E0 <-]. assert (j = length T) as -> by lia. exists g, h. split; [rewrite <- L1; now apply list_lookup_middle|]. split; [|exact ST].
          intros i Hi. rewrite <- (L2 i Hi). now apply list_lookup_middle.
      + intros key. rewrite add_importance_get by exact NI. rewrite IM, IMP, gains_all_app, <- add_all_app. cbn [flat_map]. rewrite app_nil_r.
        destruct (gains _ _ key t) as [|q l]; [reflexivity|]. cbn [add_all]. f_equal. rewrite zq_0. ring.
  Qed.

  (** One round. *)
  Lemma round_ok gh T r st x ht : binv T r 0 st ht -> Ix (length T) x -> r < b_rounds P -> grads_at T r gh -> exists T' st' x' ht',
    @runs msg R S nh _ _ (cfold (guest_tree rnd nh P gcfg it gdraw calc dec gdec genc gh) (st, x) (seq 0 dim)) (fun i => cfold (fun ts (_ : nat) => host_tree Ops (sname i) P (hcfg i) (hdraw i) ts) (ht i) (seq 0 dim)) (st', x') ht' /\
    binv (T ++ T') (Datatypes.S r) 0 st' ht' /\ Ix (length (T ++ T')) x' /\ length T' = dim /\ bs_hist st' = bs_hist st /\ bs_pre st' = bs_pre st.
  Proof.
    intros I HX Hr GA.
    destruct (runs_fold (M := msg) (R := R) (S := S) nh (fun x : nat => x) (seq 0 dim) (guest_tree rnd nh P gcfg it gdraw calc dec gdec genc gh) (fun i ts _ => host_tree Ops (sname i) P (hcfg i) (hdraw i) ts)
      (fun done a b => exists T', binv (T ++ T') r (length done) a.1 b /\ Ix (length (T ++ T')) a.2 /\ length T' = length done /\ bs_hist a.1 = bs_hist st /\ bs_pre a.1 = bs_pre st)) with (a := (st, x)) (b := ht) as ([st' x'] & ht' & RU & T' & I' & X' & L' & H' & P').
    - intros done c rest [a xa] b Es (T1 & I1 & X1 & L1 & H1 & P1). cbn [fst snd] in *.
      assert (Ec : c = length done /\ length done < dim).
      { assert (X : seq 0 dim !! length done = Some c) by (rewrite Es; now apply list_lookup_middle). apply lookup_seq in X. lia. }
      destruct Ec as [-> Lc]. destruct (tree_ok T gh (T ++ T1) r (length done) a xa b I1 X1 Hr Lc GA) as (t & a' & xa' & b' & RU & I2 & X2 & H2 & P2).
      { intros j k Hj. unfold BoostSpec.wt. rewrite lookup_app_l; [reflexivity|]. pose proof (bi_len _ _ _ _ _ I). lia. }
      exists (a', xa'), b'. split; [exact RU|]. exists (T1 ++ [t]). cbn [fst snd]. rewrite app_assoc. split; [rewrite app_length, Nat.add_1_r; exact I2|]. split; [exact X2|]. rewrite !app_length. cbn [length]. split; [lia|]. split; congruence.
    - exists []. rewrite app_nil_r. auto.
    - cbn [fst snd] in *. exists T', st', x', ht'. rewrite seq_length in *. split; [|split; [|auto]].
      + eapply runs_ext; [reflexivity| |reflexivity|exact RU]. intros i c Hi. now rewrite map_id.
      + destruct I' as [A B [D1 D2] E' F' G']. split; auto.
        * rewrite A. lia.
        * split; [exact D1|]. intros k v. rewrite D2, mids_dim, mids_0. reflexivity.
  Qed.

  (** The losses recorded so far: the loss of the predictions after every round. *)
  Definition losses (T : list dtree) (hist : list Qc) : Prop := forall q x, hist !! q = Some x ->
    exists yp, x = lossf kind y yp /\ dt_wf yp /\ forall k v, tget yp k = Some v <-> k ∈ U /\ v = pred kind (scores rnd lr dim (wt T) (Datatypes.S q) k).

  Lemma losses_app T T' hist : length hist * dim <= length T -> losses T hist -> losses (T ++ T') hist.
  Proof.
    intros L H q x Hq. destruct (H q x Hq) as (yp & -> & W & G). exists yp. split; [reflexivity|]. split; [exact W|]. intros k v. rewrite G.
    rewrite (scores_ext rnd lr dim (wt (T ++ T')) (wt T)); [reflexivity|]. intros j Hj. unfold BoostSpec.wt. rewrite lookup_app_l; [reflexivity|].
    apply lookup_lt_Some in Hq. nia.
  Qed.

  Lemma close_app hist x q : close rnd (b_tol P) (hist ++ [x]) q -> close rnd (b_tol P) hist q \/ (Datatypes.S q = length hist /\ exists a, last hist = Some a /\ (qabs (rnd (a - x)) < b_tol P)%Qc).
  Proof.
    intros (a & b & Ha & Hb & Hab). destruct (decide (Datatypes.S q < length hist)) as [L|L].
    - left. rewrite lookup_app_l in Ha, Hb by lia. exists a, b. auto.
    - right. assert (L2 : Datatypes.S q = length hist) by (apply lookup_lt_Some in Hb; rewrite app_length in Hb; cbn in Hb; lia). split; [exact L2|].
      rewrite lookup_app_l in Ha by lia. rewrite L2, list_lookup_middle in Hb by reflexivity. injection Hb as <-. exists a. split; [|exact Hab]. rewrite last_lookup, <- L2. exact Ha.
  Qed.
  Lemma close_last hist x a : last hist = Some a -> (qabs (rnd (a - x)) < b_tol P)%Qc -> exists q, length (hist ++ [x]) = Datatypes.S (Datatypes.S q) /\ close rnd (b_tol P) (hist ++ [x]) q.
  Proof.
    intros Ha Hx. destruct hist as [|h0 hist0] eqn:Eh; [discriminate|]. rewrite <- Eh in *. exists (Nat.pred (length hist)). rewrite app_length. assert (0 < length hist) by (subst; cbn; lia). cbn [length]. split; [lia|].
    exists a, x. replace (Datatypes.S (Nat.pred (length hist))) with (length hist) by lia. rewrite last_lookup in Ha. split; [rewrite lookup_app_l by lia; exact Ha|]. split; [now apply list_lookup_middle|exact Hx].
  Qed.

  Lemma boost_ok rounds : forall T r st x ht, binv T r 0 st ht -> Ix (length T) x -> r + rounds <= b_rounds P -> length (bs_hist st) = r -> losses T (bs_hist st) -> bs_pre st = (if b_early P then last (bs_hist st) else None) ->
    (b_early P = true -> forall q, ~ close rnd (b_tol P) (bs_hist st) q) -> exists T' st' x' ht',
    @runs msg R S nh _ _ (guest_boost rnd pred lossf nh P gcfg it kind dim y gdraw calc dec gdec genc rounds (st, x))
      (fun i => host_boost Ops (sname i) P (hcfg i) (hdraw i) dim rounds (ht i)) (st', x') ht' /\
    binv T' (length (bs_hist st')) 0 st' ht' /\ losses T' (bs_hist st') /\ stops rnd (b_early P) (b_tol P) (r + rounds) (bs_hist st').
  Proof.
    induction rounds as [|rounds IH]; intros T r st x ht I HX HR LH LO PR NC.
    - exists T, st, x, ht. split; [apply runs_ret|]. rewrite LH. split; [exact I|]. split; [exact LO|]. split; [lia|]. destruct (b_early P); [|lia]. split; [intros q _; now apply NC|lia].
    - destruct (grads_ok T r st ht I) as (gh & Egh & GA). destruct (round_ok gh T r st x ht I HX ltac:(lia) GA) as (T' & st1 & x1 & ht1 & RU & I1 & X1 & LT' & H1 & P1).
      destruct (bi_F _ _ _ _ _ I1) as [WF GF].
      destruct (dt_mapValues_rel (fun f => Ok (pred kind f)) (fun k _ v => v = pred kind (scores rnd lr dim (wt (T ++ T')) (Datatypes.S r) k)) (bs_F st1) WF) as (yp & Eyp & Wyp & Kyp & Gyp).
      { intros k v Hv. apply GF in Hv as [_ ->]. eauto. }
      assert (GY : forall k v, tget yp k = Some v <-> k ∈ U /\ v = pred kind (scores rnd lr dim (wt (T ++ T')) (Datatypes.S r) k)).
      { intros k v. specialize (Gyp k). split.
        - intros Hv. rewrite Hv in Gyp. destruct (tget (bs_F st1) k) as [f|] eqn:Ef; [|contradiction]. apply GF in Ef as [Hk _]. auto.
        - intros [Hk ->]. assert (A : tget (bs_F st1) k = Some (mids rnd lr dim (wt (T ++ T')) (Datatypes.S r) 0 k)) by (apply GF; auto). rewrite A in Gyp. destruct (tget yp k); [now subst|contradiction]. }
      set (loss := lossf kind y yp). set (hist := bs_hist st ++ [loss]).
      assert (LO1 : losses (T ++ T') hist).
      { intros q z Hq. apply lookup_app_Some in Hq as [Hq|[Lq Hq]].
        - apply (losses_app T T' (bs_hist st)); [rewrite LH; pose proof (bi_len _ _ _ _ _ I); lia|exact LO|exact Hq].
        - apply list_lookup_singleton_Some in Hq as [E0 <-]. assert (q = r) as -> by lia. exists yp. auto. }
      assert (L1 : length hist = Datatypes.S r) by (unfold hist; rewrite app_length, LH; cbn; lia).
      cbn [guest_boost host_boost]. destruct (b_early P) eqn:EE.
      + set (c := is_converge rnd (b_tol P) (bs_pre st) loss).
        set (st2 := BState (bs_F st1) (bs_trees st1) (bs_imp st1) hist (Some loss)).
        assert (I2 : binv (T ++ T') (Datatypes.S r) 0 st2 ht1) by (destruct I1; split; assumption).
        assert (CC : if c then exists q, length hist = Datatypes.S (Datatypes.S q) /\ close rnd (b_tol P) hist q else forall q, ~ close rnd (b_tol P) hist q).
        { unfold c, is_converge. rewrite PR. unfold hist. destruct (last (bs_hist st)) as [a|] eqn:El.
          - destruct (qltb _ _) eqn:Eq.
            + apply qltb_true in Eq. exact (close_last _ _ _ El Eq).
            + apply qltb_false in Eq. intros q Hq. apply close_app in Hq as [Hq|(_ & a' & El' & Hq)]; [exact (NC eq_refl q Hq)|]. rewrite El in El'. injection El' as <-. qlra.
          - intros q Hq. apply close_app in Hq as [Hq|(_ & a' & El' & _)]; [exact (NC eq_refl q Hq)|]. congruence. }
        assert (NX : forall q, Datatypes.S (Datatypes.S q) < length hist -> ~ close rnd (b_tol P) hist q).
        { intros q Lq Hq. apply close_app in Hq as [Hq|(Lq' & _)]; [exact (NC eq_refl q Hq)|]. lia. }
        destruct c eqn:Ec.
        * exists (T ++ T'), st2, x1, ht1. split.
          { eapply runs_glift; [exact Egh|]. refine (runs_seq nh _ _ _ _ _ _ _ _ RU _). eapply runs_glift; [exact Eyp|]. cbv zeta. cbn [fst snd bs_F bs_trees bs_imp bs_hist bs_pre]. rewrite H1, P1. fold loss hist c. rewrite Ec.
            apply (runs_bcast_as nh as_stop (MStop true) true); [reflexivity|]. cbn beta iota. apply runs_ret. }
          cbn [st2 bs_hist]. rewrite L1. split; [exact I2|]. split; [exact LO1|]. split; [lia|]. split; [exact NX|]. intros _. exact CC.
        * destruct (IH (T ++ T') (Datatypes.S r) st2 x1 ht1 I2 X1 ltac:(lia)) as (T2 & st' & x' & ht' & RU2 & I' & LO' & ST'); [exact L1|exact LO1| |intros _; exact CC|].
          { cbn. unfold hist. now rewrite last_snoc. }
          exists T2, st', x', ht'. split.
          { eapply runs_glift; [exact Egh|]. refine (runs_seq nh _ _ _ _ _ _ _ _ RU _). eapply runs_glift; [exact Eyp|]. cbv zeta. cbn [fst snd bs_F bs_trees bs_imp bs_hist bs_pre]. rewrite H1, P1. fold loss hist c. rewrite Ec.
            apply (runs_bcast_as nh as_stop (MStop false) false); [reflexivity|]. cbn beta iota. exact RU2. }
          replace (r + Datatypes.S rounds) with (Datatypes.S r + rounds) by lia. auto.
      + set (st2 := BState (bs_F st1) (bs_trees st1) (bs_imp st1) hist (bs_pre st1)).
        assert (I2 : binv (T ++ T') (Datatypes.S r) 0 st2 ht1) by (destruct I1; split; assumption).
        destruct (IH (T ++ T') (Datatypes.S r) st2 x1 ht1 I2 X1 ltac:(lia)) as (T2 & st' & x' & ht' & RU2 & I' & LO' & ST'); [exact L1|exact LO1|cbn; congruence|discriminate|].
        exists T2, st', x', ht'. split.
        { eapply runs_glift; [exact Egh|]. refine (runs_seq nh _ _ _ _ _ _ _ _ RU _). eapply runs_glift; [exact Eyp|]. cbv zeta. cbn [fst snd bs_F bs_trees bs_imp bs_hist bs_pre]. rewrite H1. fold loss hist. exact RU2. }
        replace (r + Datatypes.S rounds) with (Datatypes.S r + rounds) by lia. auto.
  Qed.

  (** The whole training. *)
  Lemma train_from_ok x0 : Ix 0 x0 -> exists T st ht,
    @runs msg R S nh _ _ (guest_train_from rnd pred lossf nh P gcfg it kind dim y gdraw calc dec gdec genc x0) (fun i => host_train Ops (sname i) P (hcfg i) (hdraw i)) st (fun i => (dim, ht i)) /\
    binv T (length (bs_hist st)) 0 st ht /\ losses T (bs_hist st) /\ stops rnd (b_early P) (b_tol P) (b_rounds P) (bs_hist st).
  Proof.
    intros HX0. destruct Hy as (Wy & Ky & Vy).
    destruct (dt_mapValues_rel (fun _ => Ok (repeat (zq 0) dim)) (fun _ (_ : nat) f => f = repeat (zq 0) dim) y Wy) as (F & EF & WF & KF & GF). { eauto. }
    assert (Z0 : forall k, mids rnd lr dim (wt []) 0 0 k = repeat (zq 0) dim).
    { intros k. transitivity (map (fun _ : nat => zq 0) (seq 0 dim)).
      - unfold mids. apply map_ext. intros c. reflexivity.
      - clear. generalize 0 as c0. induction dim as [|n IHn]; intros c0; [reflexivity|]. cbn [seq map repeat]. now rewrite IHn. }
    assert (I0 : binv [] 0 0 (BState F [] [] [] None) (fun _ => [])).
    { split; cbn [bs_F bs_trees bs_imp].
      - reflexivity.
      - intros r c t _ Ht. now rewrite lookup_nil in Ht.
      - split; [exact WF|]. intros k v. specialize (GF k). rewrite Z0. split.
        + intros Hv. rewrite Hv in GF. destruct (tget y k) eqn:Ey; [|contradiction]. split; [apply Ky; eapply tget_key; eauto|exact GF].
        + intros [Hk ->]. apply Ky, tget_is_Some in Hk as [v Hv]. rewrite Hv in GF. destruct (tget F k); [now subst|contradiction].
      - split; reflexivity.
      - intros j t Hj. now rewrite lookup_nil in Hj.
      - reflexivity. }
    destruct (boost_ok (b_rounds P) [] 0 _ x0 _ I0 HX0 ltac:(lia)) as (T & st & x & ht & RU & I & LO & ST); [reflexivity|intros q x Hq; cbn in Hq; now rewrite lookup_nil in Hq|cbn; now destruct (b_early P)|intros _ q (a & b & Ha & _); cbn in Ha; now rewrite lookup_nil in Ha|].
    exists T, st, ht. split; [|auto]. unfold guest_train_from, host_train. eapply runs_glift; [exact EF|]. apply (runs_bcast_as nh as_dim (MDim dim) dim); [reflexivity|].
    intros kg kh. exact (RU (fun sx => kg sx.1) (fun i ts => kh i (dim, ts))).
  Qed.
End Loop.
