(** Saving and loading keeps what prediction reads. *)
From Verif Require Export PredictMain.
Local Open Scope nat_scope.

(** All numbers of the tree and the mask fit into the int32 fields. *)
Definition small (n : nat) : Prop := (Z.of_nat n < 2 ^ 31)%Z.
Definition node_fits (nd : node) : Prop :=
  small (n_id nd) /\ (forall f, n_fid nd = Some f -> small f) /\ (forall c, n_left nd = Some c -> small c) /\ (forall c, n_right nd = Some c -> small c).
Definition tree_fits (T : list node) (mask : dict nat mval) : Prop := (forall nd, nd ∈ T -> node_fits nd) /\ (forall id, id ∈ map fst mask -> small id).

Lemma int32_ok z : (- 2 ^ 31 <= z < 2 ^ 31)%Z -> int32 z = Ok z.
Proof. intros [A B]. unfold int32. apply Z.leb_le in A. apply Z.ltb_lt in B. now rewrite A, B. Qed.
Lemma small_int32 n : small n -> int32 (Z.of_nat n) = Ok (Z.of_nat n).
Proof. unfold small. intros H. apply int32_ok. lia. Qed.
Lemma child_int32 c : (forall n, c = Some n -> small n) -> int32 (child_num c) = Ok (child_num c).
Proof. destruct c as [n|]; cbn [child_num]; intros H; [apply small_int32; auto|]. apply int32_ok. lia. Qed.
Lemma num_child_num c : num_child (child_num c) = c.
Proof. destruct c as [n|]; unfold num_child, child_num; [|reflexivity]. destruct (Z.eqb_spec (Z.of_nat n) (-1)); [lia|]. now rewrite Nat2Z.id. Qed.

(** What a node becomes. *)
Definition reloaded (nd : node) : node :=
  Node (n_id nd) (n_site nd) (Some (match n_fid nd with Some f => f | None => 0 end)) (n_weight nd) (n_leaf nd) (zq 0) (zq 0) (n_left nd) (n_right nd).
Lemma save_load_node nd : node_fits nd -> exists b, save_node nd = Ok b /\ load_node b = reloaded nd.
Proof.
  intros (A & B & C & D). unfold save_node. rewrite (small_int32 _ A). cbn [mbind res_bind].
  assert (F : int32 (match n_fid nd with Some f => Z.of_nat f | None => 0%Z end) = Ok (Z.of_nat (match n_fid nd with Some f => f | None => 0 end))).
  { destruct (n_fid nd) as [f|]; [apply small_int32; auto|reflexivity]. }
  rewrite F. cbn [mbind res_bind]. rewrite (child_int32 _ C), (child_int32 _ D). cbn [mbind res_bind]. eexists. split; [reflexivity|].
  unfold load_node, reloaded. cbn [b_id b_site b_fid b_weight b_leaf b_left b_right]. now rewrite !num_child_num, !Nat2Z.id.
Qed.
Lemma save_load_nodes T : (forall nd, nd ∈ T -> node_fits nd) -> exists bs, mapR save_node T = Ok bs /\ map load_node bs = map reloaded T.
Proof.
  induction T as [|nd T IH]; intros H; [exists []; auto|]. destruct (save_load_node nd) as (b & E & L); [apply H; left|].
  destruct IH as (bs & E' & L'); [intros x Hx; apply H; now right|]. exists (b :: bs). cbn. rewrite E. cbn. rewrite E'. cbn. split; [reflexivity|]. now rewrite L, L'.
Qed.
Definition real (v : mval) : mval := MReal (mnum v).
Lemma save_load_mask (m : dict nat mval) : (forall id, id ∈ map fst m -> small id) -> exists p, save_mask m = Ok p /\ load_mask p = map (fun kv => (kv.1, real kv.2)) m.
Proof.
  unfold save_mask, load_mask. induction m as [|[k v] m IH]; intros H; [exists []; auto|]. destruct IH as (p & E & L); [intros id Hid; apply H; now right|].
  exists ((Z.of_nat k, mnum v) :: p). cbn [mapR fst snd]. rewrite (small_int32 k) by (apply H; left). cbn [mbind res_bind]. rewrite E. cbn [mbind res_bind]. split; [reflexivity|].
  cbn [map fst snd]. now rewrite L, Nat2Z.id.
Qed.
Lemma real_get (m : dict nat mval) id : dict_get id (map (fun kv => (kv.1, real kv.2)) m) = option_map real (dict_get id m).
Proof. induction m as [|[k v] m IH]; [reflexivity|]. cbn. destruct (decide _); [reflexivity|exact IH]. Qed.

Lemma save_load_tree T mask : tree_fits T mask -> exists p, save_tree T mask = Ok p /\ load_tree p = (map reloaded T, map (fun kv => (kv.1, real kv.2)) mask).
Proof.
  intros [A B]. destruct (save_load_nodes T A) as (bs & E & L). destruct (save_load_mask mask B) as (q & E' & L'). exists (bs, q).
  unfold save_tree. rewrite E. cbn [mbind res_bind]. rewrite E'. cbn [mbind res_bind]. split; [reflexivity|]. unfold load_tree. cbn [fst snd]. now rewrite L, L'.
Qed.

Lemma reload_prepr nh sname T gm hm gm' hm' id t : prepr nh sname T gm hm id t ->
  (forall k v, dict_get k gm = Some v -> dict_get k gm' = Some (real v)) -> (forall i k v, i < nh -> dict_get k (hm i) = Some v -> dict_get k (hm' i) = Some (real v)) ->
  prepr nh sname (map reloaded T) gm' hm' id t.
Proof.
  intros R Hg Hh. induction R as [id nd E L S|id nd own f v l r li ri E L O Ef El Er L1 L2 Rl IHl Rr IHr].
  - change (n_weight nd) with (n_weight (reloaded nd)). eapply prepr_leaf; [rewrite map_lookup, E; reflexivity|exact L|exact S].
  - change (mnum v) with (mnum (real v)). eapply (prepr_node _ _ _ _ _ id (reloaded nd) own f (real v)); try eassumption.
    + rewrite map_lookup, E. reflexivity.
    + destruct own as [i|]; cbn [reloaded n_site]; [destruct O as (Hi & S & G); auto|destruct O; auto].
    + cbn [reloaded n_fid]. now rewrite Ef.
Qed.
